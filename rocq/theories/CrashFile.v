(** A data file whose last write was interrupted while storing records. *)
From Coq Require Import ZArith List Lia Bool.
From Verif Require Import Base Crc Record RecordSpec RecordProofs Pb Meta PbProofs
  File FileProofs Metric MetricSpec MetricFile Crash.
Import ListNotations.
Open Scope Z_scope.

(** ** bytes *)
Lemma at_nth i (l : list Z) : at_ i l = nth (Z.to_nat i) l 0.
Proof. reflexivity. Qed.

Lemma sub_ext off n a b : 0 <= off -> 0 <= n -> off + n <= len a -> len b = len a ->
  (forall i, off <= i < off + n -> at_ i a = at_ i b) -> sub off n a = sub off n b.
Proof.
  intros Ho Hn Hl Hb H.
  assert (L1 : length (sub off n a) = Z.to_nat n) by (rewrite sub_length; lia).
  assert (L2 : length (sub off n b) = Z.to_nat n) by (rewrite sub_length; lia).
  apply nth_ext with (d := 0) (d' := 0); [lia|]. intros k Hk. rewrite L1 in Hk.
  rewrite !nth_sub by lia. specialize (H (off + Z.of_nat k) ltac:(lia)). unfold at_ in H.
  replace (Z.to_nat (off + Z.of_nat k)) with (Z.to_nat off + k)%nat in H by lia. exact H.
Qed.

Lemma at_put_other off new l i : 0 <= off -> 0 <= i -> off + len new <= len l ->
  i < off \/ off + len new <= i -> at_ i (put off new l) = at_ i l.
Proof.
  intros Ho Hi Hl H. unfold at_, put, len in *.
  assert (Lf : length (firstn (Z.to_nat off) l) = Z.to_nat off) by (rewrite firstn_length; lia).
  destruct H as [H|H].
  - rewrite app_nth1 by lia. rewrite <- (firstn_skipn (Z.to_nat off) l) at 2.
    rewrite app_nth1 by lia. reflexivity.
  - rewrite app_nth2 by lia. rewrite app_nth2 by lia. rewrite Lf.
    rewrite <- (firstn_skipn (Z.to_nat off + length new) l) at 2.
    rewrite app_nth2; rewrite firstn_length; [|lia]. f_equal. lia.
Qed.

Lemma torn_bytes a b t : is_bytes a -> is_bytes b -> len b = len a -> torn a b t -> is_bytes t.
Proof.
  intros Ha Hb Hl [Ht H]. apply Forall_forall. intros x Hx.
  destruct (In_nth t x 0 Hx) as (k & Hk & <-).
  specialize (H (Z.of_nat k)). unfold at_ in H. rewrite Nat2Z.id in H.
  unfold len in *. destruct H as [->| ->]; [lia| |].
  - apply (Forall_forall is_byte a); [exact Ha|]. apply nth_In. lia.
  - apply (Forall_forall is_byte b); [exact Hb|]. apply nth_In. lia.
Qed.

(** what a torn store leaves alone *)
Lemma torn_sub a b t off n : torn a b t -> 0 <= off -> 0 <= n -> off + n <= len a ->
  (forall i, off <= i < off + n -> at_ i b = at_ i a) -> sub off n t = sub off n a.
Proof.
  intros [Ht H] Ho Hn Hl Hab. apply sub_ext; try lia.
  intros i Hi. destruct (H i ltac:(lia)) as [->| ->]; auto.
Qed.

(** ** the shape of the file after an interrupted store of records *)
Definition cslots {A} (pre : list (option A)) (rs : list A) (k : nat) rest :=
  pre ++ map Some (firstn k rs) ++ repeat None (length rs - k) ++ rest.

Lemma crash_records_spec g : forall rs pre rest m c t,
  rep g (pre ++ repeat None (length rs) ++ rest) m c ->
  Forall (fun r => record_ok r /\ rec_Size r <= g_size g) rs ->
  crash_records g (len pre) rs c t ->
  is_bytes t /\ len t = len c /\ sub 0 (g_size g) t = sub 0 (g_size g) c /\
  exists k, (k <= length rs)%nat /\
    forall n, 0 <= n < g_cap g -> n <> len pre + Z.of_nat k \/ k = length rs ->
      slot_rep (g_size g) (sub (offset g n) (g_size g) t) (nth (Z.to_nat n) (cslots pre rs k rest) None).
Proof.
  induction rs as [|r rs IH]; intros pre rest m c t HR HF HC.
  - cbn [crash_records] in HC. subst t. pose proof HR as (Hg & Hb & Hl & Hs & Hm & HM & H).
    split; [exact Hb|]. split; [reflexivity|]. split; [reflexivity|].
    exists 0%nat. split; [cbn; lia|]. intros n Hn _. unfold cslots. cbn [firstn map length Nat.sub repeat app] in *.
    now apply H.
  - cbn [crash_records] in HC. cbn [length repeat app] in HR.
    inversion HF as [|? ? [Hr Hsz] HF']; subst.
    pose proof HR as (Hg & Hb & Hl & Hs & Hm & HM & H). pose proof Hg as [Hg1 Hg2].
    assert (Hp : 0 <= len pre < g_cap g).
    { rewrite <- Hs. unfold len. rewrite app_length. cbn [length]. lia. }
    destruct (rep_set g _ m c (len pre) r HR ltac:(lia) Hr Hsz) as (c1 & E & HR1).
    rewrite E in HC. unfold len in HR1 at 1. rewrite Nat2Z.id, upd_middle in HR1.
    replace (pre ++ Some r :: repeat None (length rs) ++ rest)
      with ((pre ++ [Some r]) ++ repeat None (length rs) ++ rest) in HR1
      by (now rewrite <- app_assoc).
    assert (Hc1 : exists b, c1 = put (offset g (len pre)) b c /\ len b = g_size g).
    { unfold f_set_record in E. destruct ((g_cap g <=? len pre) || (len pre <? 0)); [discriminate|].
      unfold writeRecord in E. pose proof (offset_bounds g (len pre) _ Hg Hl Hp) as [Ho1 Ho2].
      rewrite sub_len in E by lia.
      destruct (g_size g <? rec_Size r); [discriminate|]. cbn [bind] in E. injection E as <-.
      eexists. split; [reflexivity|].
      pose proof (marshal_len r Hr). pose proof (sub_len (offset g (len pre)) (g_size g) c ltac:(lia) ltac:(lia) ltac:(lia)).
      rewrite put_len; unfold len in *; lia. }
    destruct Hc1 as (b & Ec1 & Lb).
    pose proof (offset_bounds g (len pre) _ Hg Hl Hp) as [Ho1 Ho2].
    assert (Hlc1 : len c1 = len c) by (rewrite Ec1, put_len; lia).
    destruct HC as [HT|HC].
    + pose proof HR1 as (_ & Hb1 & _).
      split; [exact (torn_bytes c c1 t Hb Hb1 Hlc1 HT)|]. split; [exact (proj1 HT)|].
      split.
      { apply (torn_sub c c1 t); auto; try lia. intros i Hi. rewrite Ec1. apply at_put_other; lia. }
      exists 0%nat. split; [lia|]. intros n Hn [Hne|Hne]; [|discriminate].
      rewrite Z.add_0_r in Hne.
      pose proof (offset_bounds g n _ Hg Hl Hn) as [Hn1 Hn2].
      rewrite (torn_sub c c1 t (offset g n) (g_size g) HT ltac:(lia) ltac:(lia) ltac:(lia)).
      * unfold cslots. cbn [firstn map app length Nat.sub repeat]. now apply H.
      * intros i Hi. rewrite Ec1. destruct (offset_disjoint g n (len pre) Hg Hne); apply at_put_other; lia.
    + replace (len pre + 1) with (len (pre ++ [Some r])) in HC by (rewrite len_app; reflexivity).
      destruct (IH (pre ++ [Some r]) rest m c1 t HR1 HF' HC) as (Hbt & Hlt & Hmt & k & Hk & Hsl).
      split; [exact Hbt|]. split; [lia|]. split.
      { rewrite Hmt. rewrite Ec1. apply sub_put_other; lia. }
      exists (S k). split; [cbn; lia|]. intros n Hn Hor.
      replace (cslots pre (r :: rs) (S k) rest) with (cslots (pre ++ [Some r]) rs k rest).
      * apply Hsl; [exact Hn|]. rewrite len_app. change (len [Some r]) with 1.
        cbn [length] in Hor. lia.
      * unfold cslots. cbn [firstn map length Nat.sub app]. rewrite <- app_assoc. reflexivity.
Qed.

(** ** finding the head pointer among half stored records *)
Lemma head_walk_between g t base q : 0 <= base <= q -> q <= g_cap g ->
  (forall n, 0 <= n < base -> f_has_record g n t = false) ->
  (forall n, q <= n < g_cap g -> f_has_record g n t = true) ->
  forall fuel delta head orig,
  0 <= head < g_cap g -> orig = f_has_record g head t ->
  delta = (if orig then -1 else 1) ->
  (Z.to_nat (if orig then head + 1 else g_cap g - head) <= fuel)%nat ->
  exists p, head_walk fuel g t orig delta head = Ok (p - 1) /\ base <= p <= q.
Proof.
  intros Hb Hq Hlow Hhigh.
  induction fuel as [|fuel IH]; intros delta head orig Hh Ho Hd Hfu; [destruct orig; lia|].
  cbn [head_walk]. destruct orig; subst delta.
  - assert (base <= head).
    { destruct (Z_lt_ge_dec head base); [|lia]. rewrite (Hlow head) in Ho by lia. discriminate. }
    destruct (Z.eqb_spec (head + -1) (g_cap g)); [lia|].
    destruct (Z.ltb_spec (head + -1) 0).
    { exists 0. split; [reflexivity|]. lia. }
    destruct (f_has_record g (head + -1) t) eqn:E; cbn [Bool.eqb].
    + apply IH; auto; lia.
    + exists head. split; [f_equal; lia|]. split; [lia|].
      destruct (Z_lt_ge_dec q head); [|lia].
      rewrite (Hhigh (head + -1)) in E by lia. discriminate.
  - assert (head < q).
    { destruct (Z_lt_ge_dec head q); [lia|]. rewrite (Hhigh head) in Ho by lia. discriminate. }
    destruct (Z.eqb_spec (head + 1) (g_cap g)) as [e|].
    { exists (g_cap g). split; [f_equal; lia|]. lia. }
    destruct (Z.ltb_spec (head + 1) 0); [lia|].
    destruct (f_has_record g (head + 1) t) eqn:E; cbn [Bool.eqb].
    + exists (head + 1). split; [f_equal; lia|].
      destruct (Z_lt_ge_dec (head + 1) base); [|lia].
      rewrite (Hlow (head + 1)) in E by lia. discriminate.
    + apply IH; auto; lia.
Qed.

(** ** reading over half stored records *)
Lemma read_partial {A} (cb : callback A) g t e : forall d p q,
  q - p = Z.of_nat d -> 0 <= p -> q <= g_cap g ->
  (forall n, p <= n < q -> f_record g n t = Err \/
     exists r, f_record g n t = Ok r /\ (r_kind r = kind_begin \/ r_kind r = kind_continue)) ->
  (p < q -> f_record g (q - 1) t = Err) ->
  forall acc fuel, g_cap g - p <= Z.of_nat fuel ->
  exists fuel', g_cap g - q <= Z.of_nat fuel' /\
    read_new cb fuel g t e p acc = read_new cb fuel' g t e q acc /\
    (p < q -> forall buf, exists fuel'', g_cap g - q <= Z.of_nat fuel'' /\
       read_more cb fuel g t e p buf acc = read_new cb fuel'' g t e q acc).
Proof.
  induction d as [|d IH]; intros p q Hd Hp Hq Hs Hl acc fuel Hf.
  - assert (p = q) by lia. subst q. exists fuel. split; [lia|]. split; [reflexivity|]. lia.
  - destruct fuel as [|fuel]; [lia|].
    assert (Hs' : forall n, p + 1 <= n < q -> f_record g n t = Err \/
     exists r, f_record g n t = Ok r /\ (r_kind r = kind_begin \/ r_kind r = kind_continue)).
    { intros n Hn. apply Hs. lia. }
    destruct (IH (p + 1) q ltac:(lia) ltac:(lia) Hq Hs' ltac:(intros; apply Hl; lia) acc fuel ltac:(lia))
      as (fuel' & Hf' & En & Em).
    cbn [read_new read_more]. destruct (Z.ltb_spec p (g_cap g)); [|lia]. cbn [negb].
    destruct (Hs p ltac:(lia)) as [E|(r & E & K)].
    + rewrite E. exists fuel'. split; [exact Hf'|]. split; [exact En|].
      intros _ buf. exists fuel'. auto.
    + rewrite E.
      assert (Hpq : p + 1 < q).
      { destruct (Z_lt_ge_dec (p + 1) q); [assumption|]. specialize (Hl ltac:(lia)).
        replace (q - 1) with p in Hl by lia. congruence. }
      destruct (Em Hpq (r_data r)) as (f2 & Hf2 & E2).
      assert (r_kind r =? kind_complete = false) as K2 by (destruct K as [-> | ->]; reflexivity).
      assert (r_kind r =? kind_end = false) as K5 by (destruct K as [-> | ->]; reflexivity).
      assert (Hmore : forall buf, exists fuel'', g_cap g - q <= Z.of_nat fuel'' /\
        (if r_kind r =? kind_continue then read_more cb fuel g t e (p + 1) (buf ++ r_data r) acc
         else if negb (r_kind r =? kind_end) then read_new cb fuel g t e (p + 1) acc
         else match cb acc (Val (r_start r) (r_end r) (buf ++ r_data r)) with
              | (acc, Ok true) => read_new cb fuel g t e (p + 1) acc
              | other => other
              end) = read_new cb fuel'' g t e q acc).
      { intros buf. rewrite K5. cbn [negb]. destruct K as [-> | ->].
        - change (kind_begin =? kind_continue) with false. cbn match. exists fuel'. auto.
        - change (kind_continue =? kind_continue) with true. cbn match. apply Em. exact Hpq. }
      destruct (Z.leb_spec e (r_end r)).
      { exists fuel'. split; [exact Hf'|]. split; [exact En|]. intros _ buf. apply Hmore. }
      rewrite K2. destruct K as [K|K]; rewrite K in *.
      * change (kind_begin =? kind_begin) with true. cbn [negb]. cbn match.
        exists f2. split; [exact Hf2|]. split; [exact E2|]. intros _ buf. apply Hmore.
      * change (kind_continue =? kind_begin) with false. cbn [negb]. cbn match.
        exists fuel'. split; [exact Hf'|]. split; [exact En|]. intros _ buf. apply Hmore.
Qed.

(** ** the file as a whole *)
(** every record that [t] shows was in [c] or is in [c'] : the checksums detect
    half stored records *)
Definition detects (g : geom) (c c' t : list Z) : Prop :=
  forall n, f_record g n t = Err \/ f_record g n t = f_record g n c \/ f_record g n t = f_record g n c'.

Lemma kinds_prefix ks k r : kinds_ok ks -> (k < length ks - 1)%nat -> nth_error ks k = Some r ->
  r = kind_begin \/ r = kind_continue.
Proof.
  intros H Hk E. destruct H as [|n]; [cbn in Hk; lia|].
  destruct k as [|k]; cbn in E; [injection E as <-; now left|]. right.
  rewrite !app_length, repeat_length in Hk. cbn [length] in Hk.
  rewrite nth_error_app1 in E by (rewrite repeat_length; lia).
  assert (In r (repeat 4 n)) as Hi by (eapply nth_error_In; eauto). now apply repeat_spec in Hi.
Qed.

Definition smallest_of (f : afile) : Z := match oldest_end f with Some o => o | None => 0 end.

Theorem crash_file f c v t :
  file_rep f c -> val_ok v -> used f + nrec (a_size f) v <= a_cap f -> desc (v :: a_vals f) ->
  forall c', fst (write_records (geom_of f) (a_cap f - used f) (nrec (a_size f) v)
               (v_start v) (v_end v) (v_data v) c) = c' ->
  crash_records (geom_of f) (a_cap f - used f - nrec (a_size f) v) (recs (a_size f) v) c t ->
  openFile t = Ok (geom_of f) /\
  (detects (geom_of f) c c' t ->
   (forall X (cb : callback X) e acc, read_file cb (geom_of f) t e acc =
      if e <=? smallest_of f then (acc, Ok false)
      else run_cb cb acc (filter (fun v => v_end v <? e) (a_vals f))) \/
   (forall X (cb : callback X) e acc, read_file cb (geom_of f) t e acc =
      if e <=? smallest_of f then (acc, Ok false)
      else run_cb cb acc (filter (fun v => v_end v <? e) (v :: a_vals f)))).
Proof.
  intros HF Hv Hfit Hd c' Ec' HC.
  destruct (write_records_spec f c v HF Hv Hfit Hd) as (c'' & Ew & HF').
  rewrite Ew in Ec'. cbn [fst] in Ec'. subst c''. clear Ew.
  pose proof HF as (Hok & m & HR & Hm & Hh & Hn & Hsm).
  pose proof Hok as ((Hs & Hc & Hprod) & Hvs & Hu & Hd').
  pose proof (used_nonneg (a_size f) (a_vals f) ltac:(lia)) as Hu0. fold (used f) in Hu0.
  destruct (recs_spec (a_size f) v Hs Hv) as (_ & _ & L & P & _ & K & F).
  set (rs := recs (a_size f) v) in *. set (nr := nrec (a_size f) v) in *.
  assert (Hlr : length rs = Z.to_nat nr) by (unfold len in L; lia).
  set (pre := repeat (@None record) (Z.to_nat (a_cap f - used f - nr))).
  set (old := map Some (flat_map (recs (a_size f)) (a_vals f))).
  assert (Hsl : slots_of f = pre ++ repeat None (length rs) ++ old).
  { unfold slots_of, pre, old. rewrite app_assoc, <- repeat_app. do 2 f_equal. lia. }
  assert (Hpre : len pre = a_cap f - used f - nr).
  { unfold pre, len. rewrite repeat_length. lia. }
  assert (Hold : len old = used f).
  { unfold old, len. rewrite map_length. fold (len (flat_map (recs (a_size f)) (a_vals f))).
    rewrite flat_recs_len by auto. reflexivity. }
  rewrite Hsl in HR. rewrite <- Hpre in HC.
  set (g := geom_of f) in *.
  assert (Hgc : g_cap g = a_cap f) by reflexivity. assert (Hgs : g_size g = a_size f) by reflexivity.
  destruct (crash_records_spec g rs pre old m c t HR) as (Hbt & Hlt & Hmt & k & Hk & Hslots).
  { eapply Forall_impl; [|exact F]. cbn. tauto. }
  { exact HC. }
  pose proof HR as (Hg & Hbc & Hlc & Hsc & Hmo & HM & _).
  assert (HMt : f_metadata g t = Ok m) by (unfold f_metadata in *; rewrite Hmt, Hlt; exact HM).
  (* what the record slots of the complete write hold *)
  assert (Hafter : forall i r, nth_error rs i = Some r -> f_record g (len pre + Z.of_nat i) c' = Ok r).
  { intros i r Hi. destruct HF' as (_ & m' & HR' & _).
    unfold geom_of in HR'; cbn [a_cap a_size] in HR'. fold (geom_of f) in HR'. fold g in HR'.
    assert (Hi' : (i < length rs)%nat) by (apply nth_error_Some; congruence).
    apply (rep_get _ _ _ _ _ _ HR'); [lia|].
    unfold slots_of; cbn [a_cap a_size a_vals flat_map]. unfold used; cbn [a_size a_vals used_].
    fold (used f). fold nr. fold rs.
    rewrite app_nth2 by (rewrite repeat_length; lia). rewrite repeat_length.
    rewrite map_app, app_nth1 by (rewrite map_length; lia).
    replace (Z.to_nat (len pre + Z.of_nat i) - _)%nat with i by lia.
    exact (nth_error_nth _ _ None (map_nth_error Some _ _ Hi)). }
  (* a complete representation with k' records stored *)
  assert (Hrep : forall k', (k' <= length rs)%nat ->
     (forall n, 0 <= n < g_cap g -> slot_rep (g_size g) (sub (offset g n) (g_size g) t)
        (nth (Z.to_nat n) (cslots pre rs k' old) None)) -> rep g (cslots pre rs k' old) m t).
  { intros k' Hk' Hs'. split; [exact Hg|]. split; [exact Hbt|]. split; [congruence|].
    split; [|split; [exact Hmo|split; [exact HMt|exact Hs']]].
    unfold cslots. rewrite !len_app, Hpre, Hold. unfold len. rewrite map_length, firstn_length, repeat_length.
    rewrite Hgc. lia. }
  split.
  { (* the file opens *)
    unfold openFile. rewrite Hlt, Hlc, Hgs, Hgc. unfold recordHeaderSize.
    destruct (Z.ltb_spec (a_size f * (a_cap f + 1)) 24); [nia|].
    assert (HRt : readMetadata t = Ok m).
    { rewrite <- (firstn_skipn (Z.to_nat (g_size g)) t). apply readMetadata_app.
      - apply Forall_forall. intros x Hx. apply (Forall_forall is_byte t); [exact Hbt|].
        rewrite <- (firstn_skipn (Z.to_nat (g_size g)) t). apply in_app_iff. now left.
      - unfold f_metadata, sub in HMt. destruct (_ <? _); [discriminate|]. exact HMt. }
    rewrite HRt. cbn [bind]. rewrite Hm. destruct (Z.ltb_spec (a_size f) 24); [lia|].
    unfold g, geom_of. do 2 f_equal. rewrite Z.mul_comm, Z.div_mul by lia. lia. }
  intros Hdet.
  (* all records stored *)
  assert (Hfull : rep g (cslots pre rs (length rs) old) m t ->
    forall X (cb : callback X) e acc, read_file cb g t e acc =
      if e <=? smallest_of f then (acc, Ok false)
      else run_cb cb acc (filter (fun v => v_end v <? e) (v :: a_vals f))).
  { intros HRt X cb e acc. unfold read_file. rewrite HMt, Hsm. fold (smallest_of f).
    destruct (e <=? smallest_of f); [reflexivity|].
    set (f1 := AF (a_cap f) (a_size f) (v :: a_vals f)).
    assert (Ecs : cslots pre rs (length rs) old = slots_of f1).
    { unfold cslots, slots_of, f1; cbn [a_cap a_size a_vals flat_map]. unfold used; cbn [a_size a_vals used_].
      fold (used f). fold nr. fold rs. rewrite firstn_all, Nat.sub_diag. cbn [repeat app].
      rewrite map_app. unfold pre, old. do 2 f_equal. lia. }
    assert (Hok1 : afile_ok f1).
    { unfold afile_ok, f1; cbn [a_cap a_size a_vals]. split; [exact (conj Hs (conj Hc Hprod))|].
      split; [constructor; auto|]. split; [unfold used; cbn [a_size a_vals used_]; fold (used f); fold nr; lia|exact Hd]. }
    rewrite Ecs in HRt.
    assert (Hu1 : used f1 = nr + used f) by reflexivity.
    rewrite (getHeadPointer_spec g (slots_of f1) m t (a_cap f1 - used f1) HRt (slots_occupied f1 Hok1)).
    2:{ exact Hh. }
    2:{ intros Ex. specialize (Hn Ex). unfold f1; cbn [a_cap]. fold f1. lia. }
    change (a_cap f1) with (a_cap f). rewrite Hgc, Hu1.
    replace (a_cap f - (nr + used f) - 1 + 1) with (a_cap f - (nr + used f)) by lia.
    apply (read_values cb g t e (a_size f) Hs); [constructor; auto| |].
    - pose proof (flat_recs_len (a_size f) (v :: a_vals f) Hs ltac:(constructor; auto)) as Lf.
      cbn [used_] in Lf. fold (used f) in Lf. fold nr in Lf.
      split; [lia|]. split; [rewrite Hgc; lia|]. intros i r Hi.
      assert (Hlt' : (i < length (flat_map (recs (a_size f)) (v :: a_vals f)))%nat)
        by (apply nth_error_Some; congruence).
      apply (rep_get _ _ _ _ _ r HRt); rewrite ?Hgc.
      + unfold len in Lf. lia.
      + unfold slots_of. change (a_size f1) with (a_size f). change (a_vals f1) with (v :: a_vals f).
        change (a_cap f1) with (a_cap f). rewrite Hu1.
        rewrite app_nth2 by (rewrite repeat_length; lia). rewrite repeat_length.
        replace (Z.to_nat (a_cap f - (nr + used f) + Z.of_nat i) - Z.to_nat (a_cap f - (nr + used f)))%nat with i by lia.
        exact (nth_error_nth _ _ None (map_nth_error Some _ _ Hi)).
    - pose proof (flat_recs_len (a_size f) (v :: a_vals f) Hs ltac:(constructor; auto)) as Lf.
      cbn [used_] in Lf. fold (used f) in Lf. fold nr in Lf. unfold len in Lf. lia. }
  (* an incomplete value *)
  assert (Hpart : forall k', (k' < length rs)%nat ->
    (forall n, 0 <= n < g_cap g -> n <> len pre + Z.of_nat k' ->
       slot_rep (g_size g) (sub (offset g n) (g_size g) t) (nth (Z.to_nat n) (cslots pre rs k' old) None)) ->
    f_record g (len pre + Z.of_nat k') t = Err ->
    forall X (cb : callback X) e acc, read_file cb g t e acc =
      if e <=? smallest_of f then (acc, Ok false)
      else run_cb cb acc (filter (fun v => v_end v <? e) (a_vals f))).
  { intros k' Hk' Hs' HE X cb e acc. unfold read_file. rewrite HMt, Hsm. fold (smallest_of f).
    destruct (e <=? smallest_of f); [reflexivity|].
    set (q := a_cap f - used f).
    assert (Hq : q = len pre + nr) by lia.
    assert (Hgetr : forall n r, 0 <= n < g_cap g -> n <> len pre + Z.of_nat k' ->
       nth (Z.to_nat n) (cslots pre rs k' old) None = Some r -> f_record g n t = Ok r).
    { intros n r Hnn Hne E. specialize (Hs' n Hnn Hne). rewrite E in Hs'. unfold f_record.
      destruct (Z.leb_spec (g_cap g) n), (Z.ltb_spec n 0); try lia. apply Hs'. }
    assert (Hgetn : forall n, 0 <= n < g_cap g -> n <> len pre + Z.of_nat k' ->
       nth (Z.to_nat n) (cslots pre rs k' old) None = None -> f_record g n t = Err /\ f_has_record g n t = false).
    { intros n Hnn Hne E. specialize (Hs' n Hnn Hne). rewrite E in Hs'. unfold f_record, f_has_record.
      pose proof (offset_bounds g n _ Hg Hlc Hnn). destruct Hg as [Hg1 Hg2].
      destruct (Z.leb_spec (g_cap g) n), (Z.ltb_spec n 0); try lia. cbn [orb].
      cbn [slot_rep] in Hs'. split; [now apply parse_empty|]. rewrite at_sub in Hs' by lia. now rewrite Hs'. }
    assert (Hhasr : forall n r, 0 <= n < g_cap g -> n <> len pre + Z.of_nat k' ->
       nth (Z.to_nat n) (cslots pre rs k' old) None = Some r -> f_has_record g n t = true).
    { intros n r Hnn Hne E. specialize (Hs' n Hnn Hne). rewrite E in Hs'. unfold f_has_record.
      pose proof (offset_bounds g n _ Hg Hlc Hnn). destruct Hg as [Hg1 Hg2].
      destruct (Z.leb_spec (g_cap g) n), (Z.ltb_spec n 0); try lia. cbn [orb].
      destruct Hs' as (_ & _ & Hp). apply (parse_version _ _ (is_bytes_sub _ _ _ Hbt)) in Hp.
      rewrite at_sub in Hp by lia. now rewrite Hp. }
    assert (N1 : forall n, 0 <= n < len pre -> nth (Z.to_nat n) (cslots pre rs k' old) None = None).
    { intros n Hnn. unfold cslots. rewrite app_nth1 by (unfold len in *; lia). unfold pre. apply nth_repeat. }
    assert (N2 : forall i r, (i < k')%nat -> nth_error rs i = Some r ->
        nth (Z.to_nat (len pre + Z.of_nat i)) (cslots pre rs k' old) None = Some r).
    { intros i r Hi Er. unfold cslots. rewrite app_nth2 by (unfold len; lia).
      replace (Z.to_nat (len pre + Z.of_nat i) - length pre)%nat with i by (unfold len; lia).
      rewrite app_nth1 by (rewrite map_length, firstn_length; lia).
      apply nth_error_nth. apply map_nth_error.
      rewrite <- (firstn_skipn k' rs) in Er. rewrite nth_error_app1 in Er by (rewrite firstn_length; lia). exact Er. }
    assert (N3 : forall n, len pre + Z.of_nat k' <= n < q -> nth (Z.to_nat n) (cslots pre rs k' old) None = None).
    { intros n Hnn. unfold cslots. rewrite app_nth2 by (unfold len in *; lia).
      rewrite app_nth2 by (rewrite map_length, firstn_length; unfold len in *; lia).
      rewrite app_nth1 by (rewrite map_length, firstn_length, repeat_length; unfold len in *; lia).
      apply nth_repeat. }
    assert (N4 : forall i r, nth_error (flat_map (recs (a_size f)) (a_vals f)) i = Some r ->
        nth (Z.to_nat (q + Z.of_nat i)) (cslots pre rs k' old) None = Some r).
    { intros i r Er. unfold cslots. rewrite app_nth2 by (unfold len in *; lia).
      rewrite app_nth2 by (rewrite map_length, firstn_length; unfold len in *; lia).
      rewrite app_nth2 by (rewrite map_length, firstn_length, repeat_length; unfold len in *; lia).
      apply nth_error_nth. unfold old.
      match goal with |- nth_error _ ?x = _ => replace x with i
        by (rewrite map_length, firstn_length, repeat_length; unfold len in *; lia) end.
      now apply map_nth_error. }
    pose proof (flat_recs_len (a_size f) (a_vals f) Hs Hvs) as Lf. fold (used f) in Lf.
    assert (Hhead : exists p, getHeadPointer g t = Ok (p - 1) /\ len pre <= p <= q).
    { unfold getHeadPointer. rewrite HMt. cbn [bind].
      destruct (Z.ltb_spec (m_head m) 0) as [Hneg|Hpos].
      { assert (m_head m = -1) as Ex by lia. specialize (Hn Ex). lia. }
      apply head_walk_between; auto; try lia.
      - intros n Hnn. apply Hgetn; [lia|lia|]. now apply N1.
      - intros n Hnn.
        destruct (nth_error (flat_map (recs (a_size f)) (a_vals f)) (Z.to_nat (n - q))) as [r|] eqn:Er.
        2:{ apply nth_error_None in Er. unfold len in Lf. lia. }
        apply (Hhasr n r); [lia|lia|]. rewrite <- (N4 _ _ Er). do 2 f_equal. lia.
      - destruct (f_has_record g (m_head m) t); lia. }
    destruct Hhead as (p & -> & Hp). rewrite Hgc.
    replace (p - 1 + 1) with p by lia.
    destruct (read_partial cb g t e (Z.to_nat (q - p)) p q ltac:(lia) ltac:(lia) ltac:(lia)) with (acc := acc)
      (fuel := (Z.to_nat (a_cap f - p) + 1)%nat) as (fuel' & Hf' & -> & _).
    - intros n Hnn.
      destruct (Z_lt_ge_dec n (len pre + Z.of_nat k')) as [Hlt'|Hge].
      + right. destruct (nth_error rs (Z.to_nat (n - len pre))) as [r|] eqn:Er.
        2:{ apply nth_error_None in Er. lia. }
        exists r. split.
        * apply Hgetr; [lia|lia|]. rewrite <- (N2 (Z.to_nat (n - len pre)) r ltac:(lia) Er). do 2 f_equal. lia.
        * apply (kinds_prefix (map r_kind rs) (Z.to_nat (n - len pre)) (r_kind r)); [exact K| |].
          -- rewrite map_length. lia.
          -- now apply map_nth_error.
      + left. destruct (Z.eq_dec n (len pre + Z.of_nat k')) as [->|Hne]; [exact HE|].
        apply Hgetn; [lia|lia|]. apply N3. lia.
    - intros _. destruct (Z.eq_dec (q - 1) (len pre + Z.of_nat k')) as [->|Hne]; [exact HE|].
      apply Hgetn; [lia|lia|]. apply N3. lia.
    - rewrite Hgc. lia.
    - apply (read_values cb g t e (a_size f) Hs); auto.
      + split; [lia|]. split; [rewrite Hgc; lia|]. intros i r Hi.
        assert (Hlt' : (i < length (flat_map (recs (a_size f)) (a_vals f)))%nat)
          by (apply nth_error_Some; congruence).
        unfold len in Lf. apply Hgetr; [lia|lia|]. now apply N4.
      + unfold len in Lf. rewrite Hgc in Hf'. lia. }
  destruct (Nat.eq_dec k (length rs)) as [->|Hkne].
  { right. apply Hfull. apply Hrep; [lia|]. intros n Hnn. apply Hslots; auto. }
  (* the torn slot *)
  set (nk := len pre + Z.of_nat k) in *.
  destruct (nth_error rs k) as [rk|] eqn:Erk; [|apply nth_error_None in Erk; lia].
  assert (Hnk : 0 <= nk < g_cap g) by (unfold nk; rewrite Hgc; lia).
  assert (Hcase : f_record g nk t = Err \/ f_record g nk t = Ok rk).
  { destruct (Hdet nk) as [E|[E|E]]; [now left| |].
    - left. rewrite E. apply (rep_get_none _ _ _ _ _ HR Hnk). unfold nk.
      rewrite app_nth2 by (unfold len; lia). rewrite app_nth1; [apply nth_repeat|].
      rewrite repeat_length. unfold len. lia.
    - right. rewrite E. now apply Hafter. }
  destruct Hcase as [E|E].
  { left. apply (Hpart k); [lia| |exact E]. intros n Hnn Hne. apply Hslots; auto. }
  assert (HS : forall n, 0 <= n < g_cap g -> slot_rep (g_size g) (sub (offset g n) (g_size g) t)
        (nth (Z.to_nat n) (cslots pre rs (S k) old) None)).
  { intros n Hnn. destruct (Z.eq_dec n nk) as [->|Hne].
    - assert (nth (Z.to_nat nk) (cslots pre rs (S k) old) None = Some rk) as ->.
      { unfold cslots, nk. rewrite app_nth2 by (unfold len; lia).
        replace (Z.to_nat (len pre + Z.of_nat k) - length pre)%nat with k by (unfold len; lia).
        rewrite app_nth1 by (rewrite map_length, firstn_length; lia).
        apply nth_error_nth. apply map_nth_error.
        rewrite <- (firstn_skipn (S k) rs) in Erk. rewrite nth_error_app1 in Erk by (rewrite firstn_length; lia). exact Erk. }
      assert (In rk rs) as Hin by (eapply nth_error_In; eauto).
      rewrite Forall_forall in F. destruct (F rk Hin) as (F1 & _ & _ & F4).
      cbn [slot_rep]. split; [exact F1|]. split; [exact F4|].
      unfold f_record in E. destruct ((g_cap g <=? nk) || (nk <? 0)); [discriminate|]. exact E.
    - specialize (Hslots n Hnn (or_introl Hne)).
      assert (nth (Z.to_nat n) (cslots pre rs (S k) old) None = nth (Z.to_nat n) (cslots pre rs k old) None) as ->;
        [|exact Hslots].
      destruct (Z_lt_ge_dec n (len pre)).
      { unfold cslots. rewrite !app_nth1 by (unfold len in *; lia). reflexivity. }
      unfold cslots. rewrite !(app_nth2 pre) by (unfold len in *; lia).
      set (j := (Z.to_nat n - length pre)%nat). assert (Hj : (j <> k)%nat) by (unfold j, nk, len in *; lia).
      destruct (le_lt_dec k j) as [Hkj|Hkj].
      + rewrite (app_nth2 (map Some (firstn (S k) rs))) by (rewrite map_length, firstn_length; lia).
        rewrite (app_nth2 (map Some (firstn k rs))) by (rewrite map_length, firstn_length; lia).
        rewrite !map_length, !firstn_length.
        replace (length rs - k)%nat with (S (length rs - S k)) by lia.
        replace (j - Nat.min k (length rs))%nat with (S (j - Nat.min (S k) (length rs))) by lia.
        reflexivity.
      + rewrite !app_nth1 by (rewrite map_length, firstn_length; lia).
        rewrite <- (firstn_skipn k (firstn (S k) rs)), firstn_firstn, map_app.
        replace (Nat.min k (S k)) with k by lia.
        rewrite app_nth1 by (rewrite map_length, firstn_length; lia). reflexivity. }
  destruct (Nat.eq_dec (S k) (length rs)) as [Ek|Ek].
  - right. apply Hfull. rewrite <- Ek. apply Hrep; [lia|exact HS].
  - left. apply (Hpart (S k)); [lia| |].
    + intros n Hnn _. now apply HS.
    + assert (Hn2 : 0 <= len pre + Z.of_nat (S k) < g_cap g) by (rewrite Hgc; lia).
      specialize (HS _ Hn2).
      assert (nth (Z.to_nat (len pre + Z.of_nat (S k))) (cslots pre rs (S k) old) None = None) as Ex.
      { unfold cslots. rewrite app_nth2 by (unfold len in *; lia).
        rewrite app_nth2 by (rewrite map_length, firstn_length; unfold len in *; lia).
        rewrite app_nth1 by (rewrite map_length, firstn_length, repeat_length; unfold len in *; lia).
        apply nth_repeat. }
      rewrite Ex in HS. cbn [slot_rep] in HS. unfold f_record.
      destruct ((g_cap g <=? _) || _); [reflexivity|]. now apply parse_empty.
Qed.
