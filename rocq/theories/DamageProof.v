(** A database after damage to its data files. *)
From Coq Require Import ZArith List Lia Bool.
From Verif Require Import Base Maps Record RecordSpec RecordProofs Convert File FileProofs Cache CacheProofs
  Metric MetricSpec MetricFile MetricPaths MetricProofs MetricRead DbSpec DbProofs DbLog DbClient
  DamageSpec DamageFile DamageInv DamageRepr DamageDb.
Import ListNotations.
Open Scope Z_scope.

(** ** where a value is *)
Lemma kinds_prefix ka kb x y : kinds_ok ka -> kinds_ok kb -> kb ++ x = ka ++ y -> length ka = length kb.
Proof.
  assert (R : forall m n x y, repeat 4 m ++ 5 :: x = repeat 4 n ++ 5 :: y -> m = n).
  { induction m as [|m IH]; intros [|n] x' y'; cbn [repeat app]; intros E; try discriminate; [reflexivity|].
    injection E as E. f_equal. exact (IH _ _ _ E). }
  intros [|n] [|m] E; cbn [app] in E; try discriminate; [reflexivity|].
  injection E as E. rewrite <- !app_assoc in E. cbn [app] in E. apply R in E. now subst m.
Qed.
Lemma nth_prefix {X} : forall (a l : list X), (forall j r, nth_error a j = Some r -> nth_error l j = Some r) ->
  exists y, l = a ++ y.
Proof.
  induction a as [|x a IH]; intros l H; [now exists l|].
  pose proof (H 0%nat x eq_refl) as H0. destruct l as [|x' l]; [discriminate|]. injection H0 as ->.
  destruct (IH l) as (y & ->); [|now exists y]. intros j. exact (H (S j)).
Qed.
Lemma app_inv_len {X} : forall (a b x y : list X), length a = length b -> b ++ x = a ++ y -> a = b.
Proof.
  induction a as [|u a IH]; intros [|w b] x y Hl E; try discriminate; [reflexivity|].
  injection E as -> E. f_equal. apply (IH b x y); [now injection Hl|exact E].
Qed.
Lemma recs_inj size v w : 79 <= size < 65560 -> val_ok v -> val_ok w -> recs size v = recs size w -> v = w.
Proof.
  intros Hs Hv Hw E. destruct (recs_spec size v Hs Hv) as (_ & _ & L & P & C & _ & F).
  destruct (recs_spec size w Hs Hw) as (_ & _ & _ & _ & C' & _ & F'). rewrite E in *.
  destruct (recs size w) as [|r rs]; [change (len (@nil record)) with 0 in L; lia|].
  pose proof (Forall_inv F) as (_ & H1 & H2 & _). pose proof (Forall_inv F') as (_ & H3 & H4 & _).
  destruct v, w; cbn in *; congruence.
Qed.
Lemma first_kind ks k : kinds_ok ks -> nth_error ks 0 = Some k -> k = 2 \/ k = 3.
Proof. intros [|n]; cbn; intros [= <-]; auto. Qed.
Lemma later_kind ks i k : kinds_ok ks -> nth_error ks (S i) = Some k -> k = 4 \/ k = 5.
Proof.
  intros [|n]; cbn [nth_error app]; intros H; [destruct i; discriminate|].
  apply nth_error_In in H. apply in_app_iff in H. destruct H as [H|[H|[]]]; [apply repeat_spec in H|]; auto.
Qed.
Lemma align size v : 79 <= size < 65560 -> val_ok v -> forall vs i, Forall val_ok vs ->
  (forall j r, nth_error (recs size v) j = Some r -> nth_error (flat_map (recs size) vs) (i + j) = Some r) ->
  exists vs1 vs2, vs = vs1 ++ v :: vs2 /\ i = length (flat_map (recs size) vs1).
Proof.
  intros Hs Hv. destruct (recs_spec size v Hs Hv) as (_ & _ & L & P & _ & K & _).
  assert (exists r0, nth_error (recs size v) 0 = Some r0) as (r0 & E0).
  { destruct (recs size v); [change (len (@nil record)) with 0 in L; lia|]. eexists; reflexivity. }
  assert (K0 : r_kind r0 = 2 \/ r_kind r0 = 3).
  { apply (first_kind _ _ K). now rewrite (map_nth_error r_kind 0 _ E0). }
  induction vs as [|w vs IH]; intros i HV H.
  { specialize (H 0%nat r0 E0). cbn [flat_map] in H. destruct (i + 0)%nat; discriminate. }
  cbn [flat_map] in H. pose proof (Forall_inv HV) as Hw. apply Forall_inv_tail in HV.
  destruct (recs_spec size w Hs Hw) as (_ & _ & Lw & Pw & _ & Kw & _).
  destruct (Nat.ltb_spec i (length (recs size w))) as [Hlt|Hge].
  - destruct i as [|i].
    + destruct (nth_prefix (recs size v) _ H) as (y & E).
      assert (El : length (recs size v) = length (recs size w)).
      { rewrite <- (map_length r_kind (recs size v)), <- (map_length r_kind (recs size w)).
        apply (kinds_prefix _ _ (map r_kind (flat_map (recs size) vs)) (map r_kind y) K Kw).
        rewrite <- !map_app. now rewrite E. }
      pose proof (app_inv_len _ _ _ _ El E) as Er. apply (recs_inj size v w Hs Hv Hw) in Er. subst w.
      exists [], vs. split; reflexivity.
    + exfalso. specialize (H 0%nat r0 E0). rewrite Nat.add_0_r, nth_error_app1 in H by exact Hlt.
      pose proof (later_kind _ i (r_kind r0) Kw ltac:(now rewrite (map_nth_error r_kind _ _ H))). lia.
  - destruct (IH (i - length (recs size w))%nat HV) as (vs1 & vs2 & -> & Ei).
    { intros j r Hj. specialize (H j r Hj). rewrite nth_error_app2 in H by lia.
      replace (i - length (recs size w) + j)%nat with (i + j - length (recs size w))%nat by lia. exact H. }
    exists (w :: vs1), vs2. split; [reflexivity|]. cbn [flat_map]. rewrite app_length. lia.
Qed.

Lemma stored_in f c v p : file_rep f c -> stored (geom_of f) c v p ->
  exists vs1 vs2, a_vals f = vs1 ++ v :: vs2 /\ p = a_cap f - used_ (a_size f) (v :: vs2).
Proof.
  intros HF (Hv & Hst). cbn [g_size geom_of] in Hst.
  pose proof HF as (((Hs & Hc & _) & Hvs & Hu & _) & _).
  pose proof (used_nonneg (a_size f) (a_vals f) ltac:(lia)) as Hu0. fold (used f) in Hu0.
  pose proof (flat_recs_len (a_size f) (a_vals f) Hs Hvs) as L. fold (used f) in L.
  destruct (recs_spec (a_size f) v Hs Hv) as (_ & _ & Lv & Pv & _).
  assert (exists r0, nth_error (recs (a_size f) v) 0 = Some r0) as (r0 & E0).
  { destruct (recs (a_size f) v); [change (len (@nil record)) with 0 in Lv; lia|]. eexists; reflexivity. }
  assert (Hp : a_cap f - used f <= p < a_cap f).
  { specialize (Hst 0%nat r0 E0). rewrite Z.add_0_r in Hst. pose proof (f_record_ok_lt _ _ _ _ Hst) as Hl. cbn [g_cap geom_of] in Hl.
    destruct (Z_lt_ge_dec p (a_cap f - used f)); [|lia]. rewrite (free_slot f c p HF ltac:(lia)) in Hst. discriminate. }
  destruct (align (a_size f) v Hs Hv (a_vals f) (Z.to_nat (p - (a_cap f - used f))) Hvs) as (vs1 & vs2 & E & Ei).
  { intros j r Hj. specialize (Hst j r Hj). pose proof (f_record_ok_lt _ _ _ _ Hst) as Hl. cbn [g_cap geom_of] in Hl.
    destruct (nth_error (flat_map (recs (a_size f)) (a_vals f)) (Z.to_nat (p - (a_cap f - used f)) + j)) as [r'|] eqn:E'.
    - pose proof (used_slot f c _ r' HF E') as H'.
      replace (a_cap f - used f + Z.of_nat (Z.to_nat (p - (a_cap f - used f)) + j)) with (p + Z.of_nat j) in H' by lia.
      congruence.
    - exfalso. apply nth_error_None in E'. unfold len in L. lia. }
  exists vs1, vs2. split; [exact E|].
  assert (Hv1 : Forall val_ok vs1) by (rewrite E in Hvs; apply Forall_app in Hvs; tauto).
  pose proof (flat_recs_len (a_size f) vs1 Hs Hv1) as L1. unfold len in L1.
  unfold used in *. rewrite E, used_app in *. lia.
Qed.

(** decreasing end times: a value is at one place only *)
Lemma desc_lt : forall l v w, desc (v :: l) -> In w l -> v_end w < v_end v.
Proof.
  induction l as [|x l IH]; intros v w Hd Hw; [contradiction|]. destruct Hd as (H1 & H2).
  destruct Hw as [<-|Hw]; [exact H1|]. specialize (IH x w H2 Hw). lia.
Qed.
Lemma desc_unique : forall a1 v a2 b1 b2, desc (a1 ++ v :: a2) -> a1 ++ v :: a2 = b1 ++ v :: b2 -> a1 = b1 /\ a2 = b2.
Proof.
  induction a1 as [|x a1 IH]; intros v a2 [|y b1] b2 Hd E; cbn [app] in *.
  - injection E as ->. auto.
  - injection E as <- E. exfalso. assert (In v a2) by (rewrite E; apply in_app_iff; right; now left).
    pose proof (desc_lt _ _ _ Hd H). lia.
  - injection E as -> E. exfalso. assert (In v (a1 ++ v :: a2)) by (apply in_app_iff; right; now left).
    pose proof (desc_lt _ _ _ Hd H). lia.
  - injection E as <- E. destruct (IH v a2 b1 b2) as (-> & ->); auto.
    destruct a1; cbn [app] in *; apply Hd.
Qed.

(** a value of a metric is in one file, at one place *)
Lemma place_unique : forall files k k' f f' v vs1 vs2 ws1 ws2, desc (flat_map a_vals files) ->
  nth_error files k = Some f -> nth_error files k' = Some f' ->
  a_vals f = vs1 ++ v :: vs2 -> a_vals f' = ws1 ++ v :: ws2 -> k = k' /\ vs2 = ws2.
Proof.
  induction files as [|f0 files IH]; intros k k' f f' v vs1 vs2 ws1 ws2 Hd Hk Hk' E E'; [destruct k; discriminate|].
  cbn [flat_map] in Hd. pose proof (desc_app_inv _ _ Hd) as (Hd2 & Hlt).
  assert (Hin : forall j g x y, nth_error files j = Some g -> a_vals g = x ++ v :: y -> In v (flat_map a_vals files)).
  { intros j g x y Hj Eg. apply in_flat_map. exists g. split; [exact (nth_error_In _ _ Hj)|].
    rewrite Eg. apply in_app_iff. right. now left. }
  assert (Hin0 : forall x y, a_vals f0 = x ++ v :: y -> In v (a_vals f0)).
  { intros x y ->. apply in_app_iff. right. now left. }
  destruct k as [|k], k' as [|k']; cbn [nth_error] in *.
  - injection Hk as ->. injection Hk' as ->. split; [reflexivity|]. rewrite E in E', Hd.
    rewrite <- app_assoc in Hd. cbn [app] in Hd.
    assert (Hu : vs1 = ws1 /\ vs2 ++ flat_map a_vals files = ws2 ++ flat_map a_vals files).
    { eapply desc_unique; [exact Hd|]. rewrite !app_comm_cons, !app_assoc. f_equal. exact E'. }
    destruct Hu as (_ & Hu). exact (app_inv_tail _ _ _ Hu).
  - injection Hk as ->. pose proof (Hlt v v (Hin0 _ _ E) (Hin _ _ _ _ Hk' E')). lia.
  - injection Hk' as ->. pose proof (Hlt v v (Hin0 _ _ E') (Hin _ _ _ _ Hk E)). lia.
  - destruct (IH k k' f f' v vs1 vs2 ws1 ws2 Hd2 Hk Hk' E E') as (-> & ->). auto.
Qed.

(** ** which values are lost, computed *)
Lemma record_eq_dec (r r' : record) : {r = r'} + {r <> r'}.
Proof. decide equality; try apply Z.eq_dec. apply (list_eq_dec Z.eq_dec). Defined.
Lemma value_eq_dec (v w : value) : {v = w} + {v <> w}.
Proof. decide equality; try apply Z.eq_dec. apply (list_eq_dec Z.eq_dec). Defined.
Definition rd1 (g : geom) (c : list Z) (n : Z) (r : record) : bool :=
  match f_record g n c with Ok r' => if record_eq_dec r' r then true else false | _ => false end.
Fixpoint rd (g : geom) (c : list Z) (p : Z) (rs : list record) : bool :=
  match rs with [] => true | r :: rs => rd1 g c p r && rd g c (p + 1) rs end.
Lemma rd1_spec g c n r : rd1 g c n r = true <-> f_record g n c = Ok r.
Proof.
  unfold rd1. destruct (f_record g n c) as [r'| | |]; try (split; discriminate).
  destruct (record_eq_dec r' r) as [->|H]; split; congruence.
Qed.
Lemma rd_spec g c : forall rs p, rd g c p rs = true <->
  forall j r, nth_error rs j = Some r -> f_record g (p + Z.of_nat j) c = Ok r.
Proof.
  induction rs as [|r rs IH]; intros p; cbn [rd].
  - split; [|reflexivity]. intros _ [|j] r; discriminate.
  - rewrite andb_true_iff, rd1_spec, IH. split.
    + intros (H1 & H2) [|j] r0; cbn [nth_error].
      * intros [= <-]. now rewrite Z.add_0_r.
      * intros Hj. replace (p + Z.of_nat (S j)) with (p + 1 + Z.of_nat j) by lia. now apply H2.
    + intros H. split; [specialize (H 0%nat r eq_refl); now rewrite Z.add_0_r in H|].
      intros j r0 Hj. specialize (H (S j) r0 Hj). now replace (p + Z.of_nat (S j)) with (p + 1 + Z.of_nat j) in H by lia.
Qed.

(** some place of [v] in the list is unreadable *)
Fixpoint bad_in (f : afile) (c : list Z) (v : value) (vs : list value) : bool :=
  match vs with
  | [] => false
  | w :: vs' => (if value_eq_dec w v then negb (rd (geom_of f) c (a_cap f - used_ (a_size f) vs) (recs (a_size f) v)) else false)
                || bad_in f c v vs'
  end.
Lemma bad_in_spec f c v : forall vs, bad_in f c v vs = true <->
  exists vs1 vs2, vs = vs1 ++ v :: vs2 /\ rd (geom_of f) c (a_cap f - used_ (a_size f) (v :: vs2)) (recs (a_size f) v) = false.
Proof.
  induction vs as [|w vs IH]; cbn [bad_in].
  - split; [discriminate|]. intros ([|? ?] & vs2 & E & _); discriminate.
  - rewrite orb_true_iff, IH. split.
    + intros [H|(vs1 & vs2 & -> & H)]; [|exists (w :: vs1), vs2; auto].
      destruct (value_eq_dec w v) as [->|]; [|discriminate]. apply negb_true_iff in H. exists [], vs. auto.
    + intros ([|x vs1] & vs2 & E & H); cbn [app] in E; injection E as -> ->.
      * left. destruct (value_eq_dec v v); [|contradiction]. now rewrite H.
      * right. eauto.
Qed.
Definition bad_file (st st' : db) (nm : list Z) (v : value) (i : Z) (f : afile) : bool :=
  match mget beqb (path_of (w_root st) nm i) (w_files st) with
  | Some ino => bad_in f (contents st' ino) v (a_vals f)
  | None => false
  end.
Fixpoint bad_files (st st' : db) (nm : list Z) (v : value) (last : Z) (files : list afile) : bool :=
  match files with [] => false | f :: fs => bad_file st st' nm v last f || bad_files st st' nm v (last - 1) fs end.
Lemma bad_files_spec st st' nm v : forall files last, bad_files st st' nm v last files = true <->
  exists k f, nth_error files k = Some f /\ bad_file st st' nm v (last - Z.of_nat k) f = true.
Proof.
  induction files as [|f files IH]; intros last; cbn [bad_files].
  - split; [discriminate|]. intros ([|k] & g & E & _); discriminate.
  - rewrite orb_true_iff, IH. split.
    + intros [H|(k & g & E & H)]; [exists 0%nat, f; split; [reflexivity|now rewrite Z.sub_0_r]|].
      exists (S k), g. split; [exact E|]. now replace (last - Z.of_nat (S k)) with (last - 1 - Z.of_nat k) by lia.
    + intros ([|k] & g & E & H); cbn [nth_error] in E.
      * injection E as ->. left. now rewrite Z.sub_0_r in H.
      * right. exists k, g. split; [exact E|]. now replace (last - 1 - Z.of_nat k) with (last - Z.of_nat (S k)) by lia.
Qed.
Definition keep_of (st st' : db) (a : adb) (nm : list Z) (v : value) : bool :=
  match ad_map a nm with Some am => negb (bad_files st st' nm v (a_last am) (a_files am)) | None => true end.

Section After.
Variables (n : Z) (st st' : db) (a : adb).
Hypothesis HR : DR FRx n st a.
Hypothesis HD : damaged_db st st'.

Lemma linked_at nm i ino : linked st nm i ino -> exists am k f c, ad_map a nm = Some am /\
  nth_error (a_files am) k = Some f /\ i = a_last am - Z.of_nat k /\ mget Z.eqb ino (w_ino st) = Some c /\ FRx nm (nw k) f c.
Proof.
  intros (Hi & Hp). destruct HR as (HI & _).
  destruct (di_paths _ _ _ _ _ HI _ _ Hp) as (_ & name & am & i' & E & HA & Hi').
  apply path_inj in E; [|exact (di_root _ _ _ _ _ HI)|exact Hi|exact (num_range_d _ _ _ _ _ _ _ _ HI HA Hi')].
  destruct E as (<- & <-). unfold a_last in Hi'.
  destruct (nth_error (a_files am) (Z.to_nat (a_last am - i))) as [f|] eqn:Ef.
  2:{ exfalso. apply nth_error_None in Ef. unfold a_last, len in *. lia. }
  assert (Ei : i = a_last am - Z.of_nat (Z.to_nat (a_last am - i))) by (unfold a_last; lia).
  destruct (di_file _ _ _ _ _ HI nm am _ f HA Ef) as (ino' & c & H1 & H2 & H3). rewrite <- Ei, Hp in H1. injection H1 as <-.
  exists am, (Z.to_nat (a_last am - i)), f, c. auto.
Qed.
Lemma at_linked nm am k f : ad_map a nm = Some am -> nth_error (a_files am) k = Some f ->
  exists ino c, linked st nm (a_last am - Z.of_nat k) ino /\ mget Z.eqb ino (w_ino st) = Some c /\ contents st ino = c /\
    FRx nm (nw k) f c /\ openFile c = Ok (geom_of f).
Proof.
  intros HA Hk. destruct HR as (HI & _).
  destruct (di_file _ _ _ _ _ HI nm am k f HA Hk) as (ino & c & H1 & H2 & H3).
  exists ino, c. split; [split; [|exact H1]|].
  - apply (num_range_d _ _ _ _ _ nm am _ HI HA).
    assert (k < length (a_files am))%nat by (apply nth_error_Some; congruence). unfold a_last, len. lia.
  - split; [exact H2|]. split; [unfold contents; now rewrite H2|]. split; [exact H3|].
    exact (fr_open _ _ repr_exact _ _ _ _ H3).
Qed.

Lemma lost_keep nm v : lost st st' nm v <-> keep_of st st' a nm v = false.
Proof.
  unfold keep_of. split.
  - intros (i & ino & g & p & Hl & Ho & Hs & Hn).
    destruct (linked_at nm i ino Hl) as (am & k & f & c & HA & Hk & Ei & Hc & HF).
    assert (Ec : contents st ino = c) by (unfold contents; now rewrite Hc). rewrite Ec in *.
    rewrite (fr_open _ _ repr_exact _ _ _ _ HF) in Ho. injection Ho as <-.
    rewrite HA. apply negb_false_iff. apply bad_files_spec. exists k, f. split; [exact Hk|]. rewrite <- Ei.
    unfold bad_file. destruct Hl as (_ & ->). apply bad_in_spec.
    destruct (stored_in f c v p (proj1 HF) Hs) as (vs1 & vs2 & E & ->). exists vs1, vs2. split; [exact E|].
    apply not_true_iff_false. rewrite rd_spec. intros H. apply Hn. split; [exact (proj1 Hs)|exact H].
  - destruct (ad_map a nm) as [am|] eqn:HA; [|discriminate]. intros H. apply negb_false_iff in H.
    apply bad_files_spec in H. destruct H as (k & f & Hk & H).
    destruct (at_linked nm am k f HA Hk) as (ino & c & Hl & Hc & Ec & HF & Ho). unfold bad_file in H. rewrite (proj2 Hl) in H.
    apply bad_in_spec in H. destruct H as (vs1 & vs2 & E & H).
    exists (a_last am - Z.of_nat k), ino, (geom_of f), (a_cap f - used_ (a_size f) (v :: vs2)). rewrite Ec.
    split; [exact Hl|]. split; [exact Ho|]. split; [exact (stored_rep f c vs1 v vs2 (proj1 HF) E)|].
    intros (_ & Hs). apply rd_spec in Hs. cbn [g_size geom_of] in Hs. congruence.
Qed.

Lemma keep_bounded : bounded (keep_of st st' a) a.
Proof.
  intros nm v. unfold keep_of. destruct (ad_map a nm) as [am|] eqn:HA; [|discriminate]. intros H.
  apply negb_false_iff, bad_files_spec in H. destruct H as (k & f & Hk & H). unfold bad_file in H.
  destruct (mget _ _ _); [|discriminate]. apply bad_in_spec in H. destruct H as (vs1 & vs2 & E & _).
  exists am, v. split; [reflexivity|]. split; [|lia]. apply in_flat_map. exists f. split; [exact (nth_error_In _ _ Hk)|].
  rewrite E. apply in_app_iff. right. now left.
Qed.

Lemma kept_file nm am k f ino : ad_map a nm = Some am -> nth_error (a_files am) k = Some f ->
  linked st nm (a_last am - Z.of_nat k) ino -> Forall val_ok (a_vals f) -> kept (keep_of st st' a nm) f (contents st' ino).
Proof.
  intros HA Hk (_ & Hl) HV vs1 v vs2 E. destruct HR as (_ & HG & _). destruct (HG nm am HA) as (Hd & _).
  assert (Hv : val_ok v) by (rewrite E in HV; apply Forall_app in HV; destruct HV as (_ & HV); exact (Forall_inv HV)).
  unfold keep_of. rewrite HA, negb_true_iff. split.
  - intros H. split; [exact Hv|]. apply rd_spec. cbn [g_size geom_of].
    destruct (rd _ _ _ _) eqn:Er; [reflexivity|]. exfalso. apply not_true_iff_false in H. apply H.
    apply bad_files_spec. exists k, f. split; [exact Hk|]. unfold bad_file. rewrite Hl. apply bad_in_spec. eauto.
  - intros (_ & Hs). apply not_true_iff_false. intros H. apply bad_files_spec in H. destruct H as (k' & f' & Hk' & H).
    unfold bad_file in H. destruct (mget beqb (path_of (w_root st) nm (a_last am - Z.of_nat k')) (w_files st)) as [ino'|] eqn:El'; [|discriminate].
    apply bad_in_spec in H. destruct H as (ws1 & ws2 & E' & H).
    destruct (place_unique _ _ _ _ _ v _ _ _ _ Hd Hk Hk' E E') as (<- & <-).
    rewrite Hk in Hk'. injection Hk' as <-. rewrite Hl in El'. injection El' as <-.
    apply rd_spec in Hs. cbn [g_size geom_of] in Hs. congruence.
Qed.

Lemma top_same_of f c c' : file_rep f c -> top_intact (geom_of f) c c' -> top_same f c c'.
Proof.
  intros HF H k Hk Hle. apply H; [exact Hk|]. intros j Hj.
  destruct HF as (Hok & m & HRp & _). pose proof Hok as ((Hs & _) & _ & Hu & _).
  rewrite (rep_has _ _ _ _ _ HRp). cbn [g_cap geom_of].
  destruct (Z.leb_spec 0 j), (Z.ltb_spec j (a_cap f)); cbn [andb]; try reflexivity.
  unfold slots_of. rewrite app_nth1 by (rewrite repeat_length; lia). now rewrite nth_repeat.
Qed.

Lemma after_damage : DR (FRd (keep_of st st' a)) n st' a.
Proof.
  destruct HD as (Est & Hdam).
  assert (HFR : forall nm am k f, ad_map a nm = Some am -> nth_error (a_files am) k = Some f ->
    exists ino c', dfile (FRd (keep_of st st' a)) st' nm (nw k) (a_last am - Z.of_nat k) f ino c' /\ linked st nm (a_last am - Z.of_nat k) ino).
  { intros nm am k f HA Hk. destruct (at_linked nm am k f HA Hk) as (ino & c & Hl & Hc & Ec & HF & Ho).
    destruct (Hdam nm _ ino (geom_of f) Hl) as (Hda & Htop); [now rewrite Ec|]. rewrite Ec in *.
    pose proof HF as (HFr & HFe). pose proof (damaged_twin _ _ _ HFr Hda) as ((Hg1 & Hg2) & Hlen & Hlen' & _).
    pose proof HFr as ((Hopt & HV & _) & _).
    exists ino, (contents st' ino). split; [|exact Hl]. split; [|split].
    - rewrite Est. cbn [set_ino w_root w_files]. exact (proj2 Hl).
    - unfold contents in *. destruct (mget Z.eqb ino (w_ino st')); [reflexivity|]. exfalso.
      change (len (@nil Z)) with 0 in Hlen'. nia.
    - exists c. split; [exact HFr|]. split; [exact HFe|]. split; [exact Hda|]. split.
      + intros Hnw. destruct k as [|k]; [|discriminate]. apply top_same_of; [exact HFr|]. apply Htop.
        intros j ino' Hj Hl'. destruct (linked_at nm j ino' Hl') as (am' & k' & f' & c2 & HA' & Hk' & Ej & _).
        rewrite HA in HA'. injection HA' as <-. lia.
      + exact (kept_file nm am k f ino HA Hk Hl HV). }
  pose proof HR as (HI & HG & Hrest). split; [|split; [exact HG|]].
  2:{ rewrite Est. exact Hrest. }
  assert (Hfields : w_next st' = w_next st /\ w_files st' = w_files st /\ w_dirs st' = w_dirs st /\ w_toks st' = w_toks st /\
    w_cache st' = w_cache st /\ w_size st' = w_size st /\ w_cap st' = w_cap st /\ w_root st' = w_root st)
    by (rewrite Est; repeat split).
  destruct Hfields as (E1 & E2 & E3 & E4 & E5 & E6 & E7 & E8).
  destruct HI as [I1 I2 I3 I4 I5 I6 I7 I8 I9 I10 I11 I12 I13 I14 I15].
  constructor; rewrite ?E1, ?E2, ?E3, ?E4, ?E5, ?E6, ?E7, ?E8; try assumption.
  - intros name am k f HA Hk. destruct (HFR name am k f HA Hk) as (ino & c & H & _). eauto.
  - intros p t h Hp Hh. destruct (I15 p t h Hp Hh) as (H1 & H2). split; [exact H1|].
    destruct (I11 p _ H1) as (_ & nm & am & i & -> & HA & Hi).
    assert (Hl : linked st nm i (h_ino h)).
    { split; [|exact H1]. destruct HR as (HI & _). exact (num_range_d _ _ _ _ _ nm am _ HI HA Hi). }
    destruct (linked_at nm i _ Hl) as (am' & k & f & c & HA' & Hk & Ei & Hc & HF).
    destruct (HFR nm am' k f HA' Hk) as (ino & c' & (P1 & P2 & P3) & _).
    rewrite <- Ei, E8, E2, H1 in P1. injection P1 as <-.
    unfold contents in H2 |- *. rewrite Hc in H2. rewrite P2.
    rewrite (fr_open _ _ repr_exact _ _ _ _ HF) in H2. injection H2 as <-.
    exact (fr_open _ _ (repr_damaged _) _ _ _ _ P3).
Qed.
End After.

(** ** answers *)
Lemma without_filter {X} (P : X -> Prop) (k : X -> bool) : (forall v, P v <-> k v = false) ->
  forall l, without P l (filter k l).
Proof.
  intros H. induction l as [|v l IH]; cbn [filter]; [constructor|].
  destruct (k v) eqn:E; constructor; auto.
  - rewrite H. congruence.
  - now apply H.
Qed.
Lemma a_query_out name e b : exists l r, snd (a_step (OQuery name e) b) = RQuery l r.
Proof.
  cbn [a_step]. destruct (ad_map b name); [eexists _, _; reflexivity|]. destruct (existsb _ _); eexists _, _; reflexivity.
Qed.
Lemma k_out_answers (P : list Z -> value -> Prop) keep o a : (forall nm v, P nm v <-> keep nm v = false) ->
  answers P o (k_out (fun _ _ => true) o a) (k_out keep o a).
Proof.
  intros H. destruct o as [name v|name e|name|size cap max handles rand]; cbn [answers].
  - reflexivity.
  - unfold k_out. destruct (a_query_out name e a) as (l & r & ->).
    rewrite filter_true. split; [reflexivity|]. now apply without_filter.
  - unfold k_out. destruct (a_query_out name (2 ^ 63 - 1) a) as (l & r & ->).
    rewrite filter_true. split; [reflexivity|]. split; [|split].
    + destruct l; [reflexivity|discriminate].
    + intros v. destruct l as [|w l]; [discriminate|]. intros [= ->] Hn. cbn [filter].
      destruct (keep name v) eqn:E; [reflexivity|]. exfalso. now apply Hn, H.
    + intros v Hv Hp. apply H in Hp.
      assert (In v (filter (keep name) l)) as Hin by (destruct (filter (keep name) l); [discriminate|injection Hv as ->; now left]).
      apply filter_In in Hin. destruct Hin as (_ & Hin). congruence.
  - reflexivity.
Qed.
Lemma k_outs_answer (P : list Z -> value -> Prop) keep : (forall nm v, P nm v <-> keep nm v = false) ->
  forall ops a, all_answer P ops (k_outs (fun _ _ => true) ops a) (k_outs keep ops a).
Proof.
  intros H. induction ops as [|o ops IH]; intros a; cbn [k_outs]; constructor; [now apply k_out_answers|apply IH].
Qed.

(** the state after a history *)
Lemma history_exact root size cap max handles rand ops : root <> [] -> process_ok size cap handles rand ->
  ops_ok size cap ops -> Z.of_nat (length ops) < 2 ^ 61 ->
  exists st a outs, c_run ops (db_empty root size cap max handles rand) = (st, outs) /\
    DR FRx (1 + Z.of_nat (length ops)) st a /\ ad_size a = last_size size ops /\ ad_cap a = last_cap cap ops.
Proof.
  intros Hr Hp Ho Hn.
  destruct (run_sim_d FRx _ repr_exact ops 1 _ _ (R_empty_d FRx root size cap max handles rand Hr Hp)) as (st & E & H).
  - intros nm v. discriminate.
  - exact Ho.
  - lia.
  - pose proof (a_run_opts ops (adb_empty root size cap max)) as (O1 & O2 & _).
    exists st, (fst (a_run ops (adb_empty root size cap max))), (k_outs (fun _ _ => true) ops (adb_empty root size cap max)).
    auto.
Qed.

Lemma damage_answers root size cap max handles rand ops ops2 st outs1 st' outs outs' :
  root <> [] -> process_ok size cap handles rand -> ops_ok size cap (ops ++ ops2) -> Z.of_nat (length (ops ++ ops2)) < 2 ^ 61 ->
  c_run ops (db_empty root size cap max handles rand) = (st, outs1) -> damaged_db st st' ->
  outs = snd (c_run ops2 st) -> outs' = snd (c_run ops2 st') ->
  all_answer (lost st st') ops2 outs outs'.
Proof.
  intros Hr Hp Ho Hn E HD -> ->. rewrite app_length in Hn. apply ops_ok_app in Ho. destruct Ho as (Ho1 & Ho2).
  destruct (history_exact root size cap max handles rand ops Hr Hp Ho1 ltac:(lia)) as (st0 & a & outs0 & E0 & HR & S1 & S2).
  rewrite E0 in E. injection E as <- <-. rewrite <- S1, <- S2 in Ho2.
  destruct (run_sim_d FRx _ repr_exact ops2 _ _ _ HR) as (s1 & E1 & _); [intros nm v; discriminate|exact Ho2|lia|].
  destruct (run_sim_d _ _ (repr_damaged (keep_of st0 st' a)) ops2 _ _ _ (after_damage _ _ _ _ HR HD)) as (s2 & E2 & _);
    [apply keep_bounded|exact Ho2|lia|].
  rewrite E1, E2. cbn [snd]. apply k_outs_answer. intros nm v. exact (lost_keep _ _ _ _ HR nm v).
Qed.

(** QueryLatest is the first value of a query without bound, on a damaged database as well *)
Lemma damage_latest root size cap max handles rand ops ops2 st outs1 st' :
  root <> [] -> process_ok size cap handles rand -> ops_ok size cap (ops ++ ops2) -> Z.of_nat (length (ops ++ ops2)) < 2 ^ 61 ->
  c_run ops (db_empty root size cap max handles rand) = (st, outs1) -> damaged_db st st' ->
  forall name, exists l r,
    snd (c_step (OQuery name (2 ^ 63 - 1)) (fst (c_run ops2 st'))) = RQuery l r /\
    snd (c_step (OLatest name) (fst (c_run ops2 st'))) = RLatest (hd_error l) r.
Proof.
  intros Hr Hp Ho Hn E HD name. rewrite app_length in Hn. apply ops_ok_app in Ho. destruct Ho as (Ho1 & Ho2).
  destruct (history_exact root size cap max handles rand ops Hr Hp Ho1 ltac:(lia)) as (st0 & a & outs0 & E0 & HR & S1 & S2).
  rewrite E0 in E. injection E as <- <-. rewrite <- S1, <- S2 in Ho2.
  set (keep := keep_of st0 st' a).
  assert (Hk : forall ops n s b, DR (FRd keep) n s b -> bounded keep b -> ops_ok (ad_size b) (ad_cap b) ops ->
    n + Z.of_nat (length ops) < 2 ^ 62 -> exists b', DR (FRd keep) (n + Z.of_nat (length ops)) (fst (c_run ops s)) b' /\ bounded keep b').
  { clear. intros ops n s b H1 H2 H3 H4. destruct (run_sim_d _ _ (repr_damaged keep) ops n s b H1 H2 H3 H4) as (s' & E & H).
    rewrite E. eexists. split; [exact H|]. clear E H H3 H4 s'.
    assert (HG : Good (ad_map b)) by apply H1. clear H1. revert b H2 HG. induction ops as [|o ops IH]; intros b H2 HG; cbn [a_run]; [exact H2|].
    pose proof (bounded_step keep o b HG H2) as H3.
    assert (HG' : Good (ad_map (fst (a_step o b)))) by (now apply good_step).
    destruct (a_step o b) as [b1 x]. cbn [fst] in *. specialize (IH b1 H3 HG'). destruct (a_run ops b1). exact IH. }
  destruct (Hk ops2 _ _ _ (after_damage _ _ _ _ HR HD) (keep_bounded _ _ _) Ho2 ltac:(lia)) as (b & HRb & HBb).
  destruct (step_sim_d _ _ (repr_damaged keep) _ _ _ (OQuery name (2 ^ 63 - 1)) HRb HBb I ltac:(lia)) as (s1 & E1 & _).
  destruct (step_sim_d _ _ (repr_damaged keep) _ _ _ (OLatest name) HRb HBb I ltac:(lia)) as (s2 & E2 & _).
  rewrite E1, E2. cbn [snd]. unfold k_out.
  destruct (a_query_out name (2 ^ 63 - 1) b) as (l & r & ->).
  eexists _, _. split; reflexivity.
Qed.
