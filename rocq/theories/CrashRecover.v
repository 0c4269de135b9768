(** Crash states in which the database is as good as new. *)
From Coq Require Import ZArith List Lia Bool.
From Verif Require Import Base Maps Record Pb Meta Convert File FileProofs Cache CacheProofs
  Metric MetricSpec MetricFile MetricPaths MetricProofs MetricRead DbSpec DbProofs
  Crash CrashFile CrashDb CrashWrite CrashProofs.
Import ListNotations.
Open Scope Z_scope.

(** nothing but unmarked bytes stored *)
Lemma crash_file_unmarked f c v t :
  file_rep f c -> val_ok v -> used f + nrec (a_size f) v <= a_cap f ->
  crash_records (geom_of f) (a_cap f - used f - nrec (a_size f) v) (recs (a_size f) v) c t ->
  (forall n, f_has_record (geom_of f) n t = true -> f_has_record (geom_of f) n c = true) ->
  file_rep f t.
Proof.
  intros HF Hv Hfit HC Hun.
  pose proof HF as (Hok & m & HR & Hm & Hh & Hn & Hsm).
  pose proof Hok as ((Hs & Hc & Hprod) & Hvs & Hu & Hd').
  pose proof (used_nonneg (a_size f) (a_vals f) ltac:(lia)) as Hu0. fold (used f) in Hu0.
  destruct (recs_spec (a_size f) v Hs Hv) as (_ & _ & L & P & _ & K & F).
  set (rs := recs (a_size f) v) in *. set (nr := nrec (a_size f) v) in *.
  assert (Hlr : length rs = Z.to_nat nr) by (unfold len in L; lia).
  set (pre := repeat (@None record) (Z.to_nat (a_cap f - used f - nr))).
  set (old := map Some (flat_map (recs (a_size f)) (a_vals f))).
  assert (Hsl : slots_of f = pre ++ repeat None (length rs) ++ old).
  { unfold slots_of, pre, old. rewrite app_assoc, <- repeat_app. do 2 f_equal. lia. }
  assert (Hpre : len pre = a_cap f - used f - nr).
  { unfold pre, len. rewrite repeat_length. lia. }
  pose proof HR as HR0. rewrite Hsl in HR. rewrite <- Hpre in HC.
  set (g := geom_of f) in *.
  assert (Hgc : g_cap g = a_cap f) by reflexivity.
  destruct (crash_records_spec g rs pre old m c t HR) as (Hbt & Hlt & Hmt & k & Hk & Hslots).
  { eapply Forall_impl; [|exact F]. cbn. tauto. }
  { exact HC. }
  pose proof HR as (Hg & Hbc & Hlc & Hsc & Hmo & HM & _).
  assert (HMt : f_metadata g t = Ok m) by (unfold f_metadata in *; rewrite Hmt, Hlt; exact HM).
  assert (Hfree : forall n, 0 <= n < g_cap g -> nth (Z.to_nat n) (slots_of f) None = None ->
            slot_rep (g_size g) (sub (offset g n) (g_size g) t) None).
  { intros n Hnn E. cbn [slot_rep]. pose proof (offset_bounds g n _ Hg Hlc Hnn).
    destruct Hg as [Hg1 Hg2]. rewrite at_sub by lia.
    assert (Hf : f_has_record g n c = false).
    { rewrite (rep_has g (slots_of f) m c n HR0). destruct (_ && _); [|reflexivity]. now rewrite E. }
    destruct (f_has_record g n t) eqn:Et; [specialize (Hun n Et); congruence|].
    unfold f_has_record in Et. destruct (Z.leb_spec (g_cap g) n), (Z.ltb_spec n 0); try lia.
    cbn [orb] in Et. apply negb_false_iff, Z.eqb_eq in Et. exact Et. }
  split; [exact Hok|]. exists m. split; [|auto].
  split; [exact Hg|]. split; [exact Hbt|]. split; [rewrite Hlt; exact Hlc|]. rewrite <- Hsl in Hsc.
  split; [exact Hsc|]. split; [exact Hmo|]. split; [exact HMt|].
  intros n Hnn.
  destruct (nth (Z.to_nat n) (slots_of f) None) as [r|] eqn:En; [|exact (Hfree n Hnn En)].
  (* an old slot *)
  assert (Hge : len pre + nr <= n).
  { destruct (Z_lt_ge_dec n (len pre + nr)) as [Hlt'|]; [exfalso|lia]. rewrite Hsl, app_assoc in En.
    rewrite app_nth1 in En by (rewrite app_length, repeat_length; unfold len in *; lia).
    unfold pre in En. rewrite <- repeat_app, nth_repeat in En. discriminate. }
  specialize (Hslots n Hnn (or_introl ltac:(intros ->; lia))) || idtac.
  assert (Hs1 : slot_rep (g_size g) (sub (offset g n) (g_size g) t)
            (nth (Z.to_nat n) (cslots pre rs k old) None)).
  { first [exact Hslots | apply Hslots; [exact Hnn|]]. destruct (Nat.eq_dec k (length rs)); [now right|left; lia]. }
  assert (E2 : nth (Z.to_nat n) (cslots pre rs k old) None = nth (Z.to_nat n) (slots_of f) None).
  { rewrite Hsl. unfold cslots.
    rewrite !(app_nth2 pre) by (unfold len in *; lia).
    rewrite (app_nth2 (map Some (firstn k rs))) by (rewrite map_length, firstn_length; unfold len in *; lia).
    rewrite !(app_nth2 (repeat None _)) by (rewrite ?map_length, ?firstn_length, ?repeat_length; unfold len in *; lia).
    f_equal. rewrite ?map_length, ?firstn_length, ?repeat_length. unfold len in *. lia. }
  rewrite E2, En in Hs1. exact Hs1.
Qed.

(** everything but the metadata stored *)
Lemma crash_file_stored f c v t :
  file_rep f c -> val_ok v -> used f + nrec (a_size f) v <= a_cap f -> desc (v :: a_vals f) ->
  forall c', fst (write_records (geom_of f) (a_cap f - used f) (nrec (a_size f) v)
               (v_start v) (v_end v) (v_data v) c) = c' ->
  crash_records (geom_of f) (a_cap f - used f - nrec (a_size f) v) (recs (a_size f) v) c t ->
  (forall n, f_record (geom_of f) n t = f_record (geom_of f) n c') ->
  a_vals f <> [] ->
  file_rep (AF (a_cap f) (a_size f) (v :: a_vals f)) t.
Proof.
  intros HF Hv Hfit Hd c' Ec' HC Hall Hne.
  destruct (write_records_spec f c v HF Hv Hfit Hd) as (c'' & Ew & HF').
  rewrite Ew in Ec'. cbn [fst] in Ec'. subst c''. clear Ew.
  pose proof HF as (Hok & m & HR & Hm & Hh & Hn & Hsm).
  pose proof Hok as ((Hs & Hc & Hprod) & Hvs & Hu & Hd').
  pose proof (used_nonneg (a_size f) (a_vals f) ltac:(lia)) as Hu0. fold (used f) in Hu0.
  destruct (recs_spec (a_size f) v Hs Hv) as (_ & _ & L & P & _ & K & F).
  set (rs := recs (a_size f) v) in *. set (nr := nrec (a_size f) v) in *.
  assert (Hlr : length rs = Z.to_nat nr) by (unfold len in L; lia).
  set (pre := repeat (@None record) (Z.to_nat (a_cap f - used f - nr))).
  set (old := map Some (flat_map (recs (a_size f)) (a_vals f))).
  assert (Hsl : slots_of f = pre ++ repeat None (length rs) ++ old).
  { unfold slots_of, pre, old. rewrite app_assoc, <- repeat_app. do 2 f_equal. lia. }
  assert (Hpre : len pre = a_cap f - used f - nr).
  { unfold pre, len. rewrite repeat_length. lia. }
  assert (Hold : len old = used f).
  { unfold old, len. rewrite map_length. fold (len (flat_map (recs (a_size f)) (a_vals f))).
    rewrite flat_recs_len by auto. reflexivity. }
  rewrite Hsl in HR. rewrite <- Hpre in HC.
  set (g := geom_of f) in *.
  assert (Hgc : g_cap g = a_cap f) by reflexivity.
  destruct (crash_records_spec g rs pre old m c t HR) as (Hbt & Hlt & Hmt & k & Hk & Hslots).
  { eapply Forall_impl; [|exact F]. cbn. tauto. }
  { exact HC. }
  pose proof HR as (Hg & Hbc & Hlc & Hsc & Hmo & HM & _).
  assert (HMt : f_metadata g t = Ok m) by (unfold f_metadata in *; rewrite Hmt, Hlt; exact HM).
  set (f1 := AF (a_cap f) (a_size f) (v :: a_vals f)) in *.
  assert (Ecs : slots_of f1 = pre ++ map Some rs ++ old).
  { unfold slots_of, f1; cbn [a_cap a_size a_vals flat_map]. unfold used; cbn [a_size a_vals used_].
    fold (used f). fold nr. fold rs. rewrite map_app. unfold pre, old. do 2 f_equal. lia. }
  pose proof HF' as (Hok1 & m' & HR' & _ & _ & _ & _).
  change (geom_of f1) with g in HR'.
  split; [exact Hok1|]. exists m. change (geom_of f1) with g.
  split.
  - split; [exact Hg|]. split; [exact Hbt|]. split; [rewrite Hlt; exact Hlc|].
    split; [exact (proj1 (proj2 (proj2 (proj2 HR'))))|]. split; [exact Hmo|]. split; [exact HMt|].
    intros n Hnn.
    destruct (nth (Z.to_nat n) (slots_of f1) None) as [r|] eqn:En.
    + pose proof (rep_get _ _ _ _ _ r HR' Hnn En) as Eg. rewrite <- Hall in Eg.
      pose proof (proj2 (proj2 (proj2 (proj2 (proj2 (proj2 HR'))))) n Hnn) as Hsr.
      rewrite En in Hsr. cbn [slot_rep] in Hsr |- *. destruct Hsr as (? & ? & _).
      split; [assumption|]. split; [assumption|]. unfold f_record in Eg.
      destruct (Z.leb_spec (g_cap g) n), (Z.ltb_spec n 0); try lia. exact Eg.
    + (* free before and after *)
      assert (Hlt' : n < len pre).
      { destruct (Z_lt_ge_dec n (len pre)) as [|Hge]; [assumption|exfalso].
        rewrite Ecs, app_nth2 in En by (unfold len in *; lia). unfold old in En. rewrite <- map_app in En.
        destruct (nth_error (rs ++ flat_map (recs (a_size f)) (a_vals f)) (Z.to_nat n - length pre)) as [r|] eqn:E.
        - pose proof (nth_error_nth _ _ None (map_nth_error (@Some record) _ _ E)) as Ex; congruence.
        - apply nth_error_None in E. rewrite app_length in E. unfold old in Hold.
          unfold len in *. rewrite map_length in Hold. lia. }
      assert (Hnk : n <> len pre + Z.of_nat k) by lia.
      specialize (Hslots n Hnn (or_introl Hnk)).
      unfold cslots in Hslots. rewrite app_nth1 in Hslots by (unfold len in *; lia).
      unfold pre in Hslots. rewrite nth_repeat in Hslots. exact Hslots.
  - split; [exact Hm|]. split; [exact Hh|]. split.
    + intros E. specialize (Hn E). lia.
    + rewrite Hsm. unfold oldest_end, f1; cbn [a_vals]. rewrite rev_cons_oldest.
      destruct (rev (a_vals f)) eqn:Er; [|reflexivity].
      exfalso. apply Hne. rewrite <- (rev_involutive (a_vals f)), Er. reflexivity.
Qed.

(** the metadata is not touched before the records are stored *)
Lemma crash_meta f c v t :
  file_rep f c -> val_ok v -> used f + nrec (a_size f) v <= a_cap f ->
  crash_records (geom_of f) (a_cap f - used f - nrec (a_size f) v) (recs (a_size f) v) c t ->
  f_metadata (geom_of f) t = f_metadata (geom_of f) c.
Proof.
  intros HF Hv Hfit HC.
  pose proof HF as (Hok & m & HR & Hm & Hh & Hn & Hsm).
  pose proof Hok as ((Hs & Hc & Hprod) & Hvs & Hu & Hd').
  pose proof (used_nonneg (a_size f) (a_vals f) ltac:(lia)) as Hu0. fold (used f) in Hu0.
  destruct (recs_spec (a_size f) v Hs Hv) as (_ & _ & L & P & _ & K & F).
  set (rs := recs (a_size f) v) in *. set (nr := nrec (a_size f) v) in *.
  assert (Hlr : length rs = Z.to_nat nr) by (unfold len in L; lia).
  set (pre := repeat (@None record) (Z.to_nat (a_cap f - used f - nr))).
  set (old := map Some (flat_map (recs (a_size f)) (a_vals f))).
  assert (Hsl : slots_of f = pre ++ repeat None (length rs) ++ old).
  { unfold slots_of, pre, old. rewrite app_assoc, <- repeat_app. do 2 f_equal. lia. }
  assert (Hpre : len pre = a_cap f - used f - nr).
  { unfold pre, len. rewrite repeat_length. lia. }
  rewrite Hsl in HR. rewrite <- Hpre in HC.
  destruct (crash_records_spec (geom_of f) rs pre old m c t HR) as (_ & Hlt & Hmt & _).
  { eapply Forall_impl; [|exact F]. cbn. tauto. }
  { exact HC. }
  unfold f_metadata in *. now rewrite Hmt, Hlt.
Qed.

(** is slot [n] of the data file [path] marked as used? *)
Definition marked (st : db) (path : list Z) (n : Z) : bool :=
  match mget beqb path (w_files st) with
  | None => false
  | Some ino =>
      match openFile (contents st ino) with
      | Ok g => f_has_record g n (contents st ino)
      | _ => false
      end
  end.
(** the smallest end time a data file's metadata shows *)
Definition smallest_at (st : db) (path : list Z) : res Z :=
  match mget beqb path (w_files st) with
  | None => Err
  | Some ino =>
      match openFile (contents st ino) with
      | Ok g => match f_metadata g (contents st ino) with Ok m => Ok (m_smallest m) | _ => Err end
      | _ => Err
      end
  end.
Definition has_file (st : db) (path : list Z) : Prop := mget beqb path (w_files st) <> None.

(** A crash between records: either no slot is marked that was not marked
    before, or all records and the smallest end time are those of the complete
    write; and it did not leave a new (second, third, ...) data file behind. *)
Definition clean_crash (name : list Z) (st st' t : db) : Prop :=
  (forall path, has_file t path -> has_file st path \/ path = metricFilenameAt (metricDir (w_root st) name) 1) /\
  ((forall path n, marked t path n = true -> marked st path n = true) \/
   (forall path, smallest_at t path = smallest_at st' path /\
                 forall n, record_at t path n = record_at st' path n)).

Definition values_of (a : adb) (name : list Z) : list value :=
  match ad_map a name with Some am => a_values am | None => [] end.

Theorem crash_recovers n st a name v p t :
  R n st a -> value_fits (ad_size a) (ad_cap a) v -> n + 1 < 2 ^ 62 ->
  let st' := fst (db_write name (v_start v) (v_end v) (v_data v) st) in
  let a' := fst (a_step (OWrite name v) a) in
  crash_db_write p name (v_start v) (v_end v) (v_data v) st t ->
  p <> PCreate -> p <> PMetadata -> (p = PRecords -> clean_crash name st st' t) ->
  exists a2, R (n + 1) t a2 /\
    ad_size a2 = ad_size a /\ ad_cap a2 = ad_cap a /\ ad_max a2 = ad_max a /\ ad_root a2 = ad_root a /\
    (forall x, x <> name -> ad_map a2 x = ad_map a x) /\
    (values_of a2 name = values_of a name \/ values_of a2 name = values_of a' name \/
     values_of a' name = v :: values_of a2 name).
Proof.
  intros HR Hfits Hn st' a' HC HnC HnM Hclean.
  destruct (write_step n st a name v HR Hfits Hn) as (stx & Ex & HRx & _).
  assert (Est' : st' = stx).
  { unfold c_step in Ex. unfold st'. destruct (db_write _ _ _ _ _). cbn [fst]. now injection Ex. }
  subst stx. clear Ex. fold a' in HRx.
  pose proof HR as (HI & HG & E1 & E2 & E3 & E4).
  pose proof (i_bound _ _ _ _ HI) as Hb.
  assert (Hl1 : values_of a' name = a_values (fst (a_write (ad_size a) (ad_cap a) (ad_max a)
                     (am_of (ad_size a) (ad_cap a) (ad_map a) name) v))).
  { unfold values_of, a'. cbn [a_step]. destruct (a_write _ _ _ _ _). cbn [fst ad_map]. now rewrite aput_same. }
  assert (Ha' : ad_size a' = ad_size a /\ ad_cap a' = ad_cap a /\ ad_max a' = ad_max a /\ ad_root a' = ad_root a /\
     forall x, x <> name -> ad_map a' x = ad_map a x).
  { unfold a'. cbn [a_step]. destruct (a_write _ _ _ _ _). cbn. repeat split.
    intros x Hx. apply aput_other. congruence. }
  destruct p; try contradiction; cbn [crash_db_write] in HC.
  - (* nothing *)
    subst t. exists a. split; [apply R_mono with (n := n); [exact HR|lia]|]. repeat split; auto.
  - (* directories *)
    destruct HC as [HC|HC].
    + cbn [crash_newMetric] in HC. destruct HC as (Hd & l & Hincl & ->).
      fold (dir_of (w_root st) name) in *.
      assert (HI2 : Inv n (set_dirs st (l ++ w_dirs st)) (l ++ ad_dirs a) (ad_map a)).
      { pose proof (inv_mkdir n st _ _ name HI) as Hmk.
        pose proof (i_fine _ _ _ _ Hmk) as Hf1. pose proof (i_fine _ _ _ _ HI) as Hf2.
        pose proof (i_dirs _ _ _ _ HI) as Hd1. pose proof (i_dir _ _ _ _ HI) as Hd2.
        destruct HI. constructor; try assumption.
        - cbn. now rewrite Hd1.
        - intros d Hd'. apply in_app_iff in Hd'. destruct Hd' as [Hd'|Hd'].
          + apply Hf1. apply in_app_iff. left. now apply Hincl.
          + now apply Hf2.
        - intros name' am' HA'. apply in_app_iff. right. now apply (Hd2 name' am'). }
      exists (ADB (ad_size a) (ad_cap a) (ad_max a) (ad_root a) (l ++ ad_dirs a) (ad_map a)).
      split; [|cbn; repeat split; auto].
      apply R_mono with (n := n); [|lia]. unfold R. cbn [ad_size ad_cap ad_max ad_root ad_dirs ad_map].
      split; [exact HI2|]. split; [exact HG|]. cbn. auto.
    + exfalso. destruct (newMetric name false st) as [st1 [m| | |]]; try contradiction.
      destruct HC as [[? _]|HC]; [discriminate|].
      destruct (acquireLast m st1) as [st2 [[[f head] m2]| | |]]; try contradiction.
      unfold crash_write_with in HC.
      repeat match type of HC with
      | match ?x with _ => _ end => destruct x; try contradiction
      | (let (_, _) := ?x in _) => destruct x; try contradiction
      | exists _, _ => destruct HC as (ct & HC & _); unfold crash_write_records in HC
      | crash_into _ _ _ _ _ _ _ _ _ => unfold crash_into in HC
      end.
  - (* the oldest file unlinked *)
    destruct HC as [HC|HC]; [contradiction|].
    destruct (newMetric_rw n st _ _ name HI HG) as (st1 & Am & En & HI1 & Hso & HA1 & Hok & Hext).
    rewrite En in HC. rewrite <- E4, <- E1, <- E2, <- E3 in *.
    set (am := am_of (w_size st) (w_cap st) (ad_map a) name) in *.
    pose proof Hso as (S1 & S2 & S3 & S4 & S5).
    rewrite <- S4 in HC.
    destruct (crash_drop_point n st1 _ Am name am v t HI1 HA1 Hok (proj1 Hfits) HC)
      as (Ad & am0 & f0 & HI2 & Hoth & HA0 & Hok0 & (O1 & O2 & O3 & O4 & _) & Ew & Hf0).
    rewrite S1, S2, S3 in Ew. rewrite Ew in Hl1. cbn [fst] in Hl1.
    unfold a_values in Hl1 at 1. cbn [a_files flat_map] in Hl1. rewrite Hf0 in Hl1. cbn [app] in Hl1.
    rewrite S1 in O1. rewrite S2 in O2. rewrite S3 in O3. rewrite S4 in O4.
    exists (ADB (w_size st) (w_cap st) (w_max st) (w_root st) (a_dirs (w_root st) (ad_dirs a) name) Ad).
    split; [|cbn [ad_size ad_cap ad_max ad_root ad_map]; repeat split; auto].
    + apply R_mono with (n := n); [|lia]. unfold R; cbn [ad_size ad_cap ad_max ad_root ad_dirs ad_map].
      split; [exact HI2|]. split; [|auto].
      intros x amx Hx. destruct (bytes_eq_dec x name) as [->|Hne].
      * rewrite HA0 in Hx. injection Hx as <-. exact Hok0.
      * rewrite Hoth in Hx by auto. rewrite <- Hext in Hx. rewrite aput_other in Hx by auto. now apply (HG x).
    + intros x Hx. rewrite Hoth by auto. rewrite <- Hext. apply aput_other. congruence.
    + right. right. unfold values_of at 2. cbn [ad_map]. rewrite HA0. exact Hl1.
  - (* records *)
    specialize (Hclean eq_refl). destruct HC as [HC|HC]; [contradiction|].
    destruct (newMetric_rw n st _ _ name HI HG) as (st1 & Am & En & HI1 & Hso & HA1 & Hok & Hext).
    rewrite En in HC. rewrite <- E4, <- E1, <- E2, <- E3 in *.
    set (am := am_of (w_size st) (w_cap st) (ad_map a) name) in *.
    pose proof Hso as (S1 & S2 & S3 & S4 & S5).
    rewrite <- S4 in HC.
    destruct (crash_records_point n st1 _ Am name am v t HI1 HA1 Hok (proj1 Hfits)) as
      [(st0 & A0' & am0 & f & older & ino & c & ct & HI2 & Hoth & HA0 & Hfs & HF & Hfit & Hd & Hcr & Et & Er & Hpath & Hcont & Hbef & Ew & Hne & Ham & O1 & O2 & O3)].
    { rewrite S1, S2. exact (proj2 Hfits). } { exact Hn. } { exact HC. }
    rewrite S1 in O1. rewrite S2 in O2. rewrite S3 in O3.
    rewrite S1, S2, S3 in Ew. rewrite Ew in Hl1. cbn [fst] in Hl1.
    unfold a_values in Hl1 at 1. cbn [a_files flat_map a_vals] in Hl1.
    assert (Est1 : fst (m_Write (Metric (dir_of (w_root st1) name) (a_first am) (a_last am))
                    (v_start v) (v_end v) (v_data v) st1) = st').
    { unfold st', db_write. rewrite En, S4. reflexivity. }
    rewrite Est1 in *.
    pose proof HF as (P1 & P2 & Prep). rewrite Er in P1. rewrite S4 in *.
    destruct (write_records_spec f c v Prep (proj1 Hfits) Hfit Hd) as (c' & Ewr & Hrep').
    rewrite Ewr in Hcont. cbn [fst] in Hcont.
    destruct (crash_file f c v ct Prep (proj1 Hfits) Hfit Hd _ eq_refl Hcr) as (Ho & _).
    assert (Hctt : contents t ino = ct) by (rewrite Et; apply contents_same).
    assert (Hpt : mget beqb (path_of (w_root st) name (a_last am0)) (w_files t) = Some ino)
      by (rewrite Et; exact P1).
    destruct Hclean as [Hfiles Hclean].
    (* no new file *)
    assert (Hlast : is_i64 (a_last am0)).
    { destruct (i_num _ _ _ _ HI2 name am0 HA0) as (? & _ & ?).
      unfold is_i64, a_last in *. pose proof (len_nonneg (a_files am0)). lia. }
    assert (am0 = am) as ->.
    { destruct Ham as [->|(Hemp & (_ & Hold & _) & Hl0 & Hno)]; [reflexivity|]. exfalso.
      cbn [a_files] in Hold.
      assert (H2 : 2 <= a_last am0).
      { destruct (i_num _ _ _ _ HI2 name am0 HA0) as (? & _ & _). unfold a_last. rewrite Hfs, len_cons.
        destruct older; [contradiction|]. rewrite len_cons. pose proof (len_nonneg older). lia. }
      destruct (Hfiles (path_of (w_root st) name (a_last am0))) as [Hh|Hh].
      - unfold has_file. rewrite Hpt. discriminate.
      - apply Hh. destruct (ad_map a name) as [amx|] eqn:HAx.
        + rewrite (newMetric_some n st _ _ name amx false HI HAx) in En. injection En as <- _ _. exact Hno.
        + apply (path_none n st _ _ name (a_last am0) HI HAx Hlast).
      - change (metricFilenameAt (metricDir (w_root st) name) 1) with (path_of (w_root st) name 1) in Hh.
        apply path_inj in Hh; [lia|exact (i_root _ _ _ _ HI)|exact Hlast|unfold is_i64; lia]. }
    clear Ham.
    destruct Hclean as [Hun|Hsto].
    + (* no slot marked *)
      assert (Hrep : file_rep f ct).
      { apply (crash_file_unmarked f c v ct Prep (proj1 Hfits) Hfit Hcr). intros k Hk.
        specialize (Hun (path_of (w_root st) name (a_last am)) k). unfold marked in Hun.
        rewrite Hpt, Hctt, Ho in Hun. specialize (Hun Hk).
        destruct (ad_map a name) as [amx|] eqn:HAx.
        - rewrite (newMetric_some n st _ _ name amx false HI HAx) in En. injection En as <- _ _.
          destruct Hbef as [[B1 B2]|B]; [|rewrite B in Hun; discriminate].
          rewrite B1, B2, (file_rep_open _ _ Prep) in Hun. exact Hun.
        - rewrite (path_none n st _ _ name (a_last am) HI HAx Hlast) in Hun. discriminate. }
      destruct (store_spec (n + 1) st0 _ A0' name am f older ino c f ct HI2 HA0 Hfs HF Hrep eq_refl) as (HI3 & Hso3 & _).
      rewrite <- Et in *.
      exists (ADB (w_size st) (w_cap st) (w_max st) (w_root st) (a_dirs (w_root st) (ad_dirs a) name)
                (aput name (AM (a_first am) (f :: older)) A0')).
      assert (Ham : AM (a_first am) (f :: older) = am) by (destruct am as [x y]; cbn in *; congruence).
      rewrite Ham in *.
      split; [|cbn [ad_size ad_cap ad_max ad_root ad_map]; repeat split; auto].
      * unfold R; cbn [ad_size ad_cap ad_max ad_root ad_dirs ad_map]. split; [exact HI3|]. split.
        -- intros x amx Hx. destruct (bytes_eq_dec x name) as [->|Hnx].
           ++ rewrite aput_same in Hx. injection Hx as <-. exact Hok.
           ++ rewrite aput_other in Hx by congruence. rewrite Hoth in Hx by auto. rewrite <- Hext in Hx.
              rewrite aput_other in Hx by congruence. now apply (HG x).
        -- destruct Hso3 as (Q1 & Q2 & Q3 & Q4 & _). repeat split; congruence.
      * intros x Hx. rewrite aput_other by congruence. rewrite Hoth by auto. rewrite <- Hext. apply aput_other. congruence.
      * left. unfold values_of. cbn [ad_map]. rewrite aput_same. unfold am, am_of.
        destruct (ad_map a name); reflexivity.
    + (* all records stored *)
      assert (Hsv : smallest_at t (path_of (w_root st) name (a_last am)) = smallest_at st' (path_of (w_root st) name (a_last am))) by apply Hsto.
      assert (Hrv : forall k, record_at t (path_of (w_root st) name (a_last am)) k = record_at st' (path_of (w_root st) name (a_last am)) k) by apply Hsto.
      set (f1 := AF (a_cap f) (a_size f) (v :: a_vals f)) in *.
      assert (Hnn : a_vals f <> []).
      { intros Hnil. unfold smallest_at in Hsv. rewrite Hpt, Hctt, Ho, Hpath, Hcont, (file_rep_open _ _ Hrep') in Hsv.
        change (geom_of f1) with (geom_of f) in Hsv.
        pose proof (crash_meta f c v ct Prep (proj1 Hfits) Hfit Hcr) as HMc. rewrite HMc in Hsv.
        destruct Hrep' as (_ & m' & HR' & _ & _ & _ & Hsm'). change (geom_of f1) with (geom_of f) in HR'.
        destruct Prep as (_ & m0 & HR0 & _ & _ & _ & Hsm0).
        rewrite (rep_meta _ _ _ _ HR') in Hsv. rewrite (rep_meta _ _ _ _ HR0) in Hsv.
        injection Hsv as Hsv. rewrite Hsm', Hsm0 in Hsv. unfold oldest_end, f1 in Hsv; cbn [a_vals] in Hsv.
        rewrite Hnil in Hsv. cbn [rev app] in Hsv.
        destruct Hfits as ((_ & _ & V3 & _) & _). congruence. }
      assert (Hrep : file_rep f1 ct).
      { apply (crash_file_stored f c v ct Prep (proj1 Hfits) Hfit Hd c'); auto.
        - now rewrite Ewr.
        - intros k. specialize (Hrv k). unfold record_at in Hrv.
          rewrite Hpt, Hctt, Ho, Hpath, Hcont, (file_rep_open _ _ Hrep') in Hrv. exact Hrv. }
      destruct (store_spec (n + 1) st0 _ A0' name am f older ino c f1 ct HI2 HA0 Hfs HF Hrep eq_refl) as (HI3 & Hso3 & _).
      rewrite <- Et in *.
      pose proof (a_write_ok (w_size st) (w_cap st) (w_max st) am v Hok) as Hok2. rewrite Ew in Hok2. cbn [fst] in Hok2.
      exists (ADB (w_size st) (w_cap st) (w_max st) (w_root st) (a_dirs (w_root st) (ad_dirs a) name)
                (aput name (AM (a_first am) (f1 :: older)) A0')).
      split; [|cbn [ad_size ad_cap ad_max ad_root ad_map]; repeat split; auto].
      * unfold R; cbn [ad_size ad_cap ad_max ad_root ad_dirs ad_map]. split; [exact HI3|]. split.
        -- intros x amx Hx. destruct (bytes_eq_dec x name) as [->|Hnx].
           ++ rewrite aput_same in Hx. injection Hx as <-. exact Hok2.
           ++ rewrite aput_other in Hx by congruence. rewrite Hoth in Hx by auto. rewrite <- Hext in Hx.
              rewrite aput_other in Hx by congruence. now apply (HG x).
        -- destruct Hso3 as (Q1 & Q2 & Q3 & Q4 & _). repeat split; congruence.
      * intros x Hx. rewrite aput_other by congruence. rewrite Hoth by auto. rewrite <- Hext. apply aput_other. congruence.
      * right. left. rewrite Hl1. unfold values_of. cbn [ad_map]. rewrite aput_same. reflexivity.
  - (* done *)
    assert (t = st') as -> by exact HC. exists a'. destruct Ha' as (? & ? & ? & ? & ?).
    split; [exact HRx|]. repeat split; auto.
Qed.
