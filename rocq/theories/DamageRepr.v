(** Two representations of abstract files: with an exact hint, and damaged. *)
From Coq Require Import ZArith List Lia Bool.
From Verif Require Import Base Maps Crc Record RecordSpec RecordProofs Pb Meta PbProofs File FileProofs Metric MetricSpec MetricFile
  MetricPaths MetricProofs MetricRead DbSpec DbProofs DamageSpec DamageFile DamageInv.
Import ListNotations.
Open Scope Z_scope.

Lemma f_record_ok_lt g n c r : f_record g n c = Ok r -> 0 <= n < g_cap g.
Proof.
  unfold f_record. destruct (Z.leb_spec (g_cap g) n), (Z.ltb_spec n 0); cbn [orb]; try discriminate. lia.
Qed.
(** ** the two representations *)
Definition exact (f : afile) (c : list Z) : Prop :=
  exists m, f_metadata (geom_of f) c = Ok m /\ m_head m = a_cap f - used f - 1.
Definition FRx (nm : list Z) (b : bool) (f : afile) (c : list Z) : Prop := file_rep f c /\ exact f c.

Definition top_same (f : afile) (c c' : list Z) : Prop :=
  forall n, 0 <= n < a_cap f -> n <= a_cap f - used f -> slot (geom_of f) c' n = slot (geom_of f) c n.
Definition kept (k : value -> bool) (f : afile) (c' : list Z) : Prop :=
  forall vs1 v vs2, a_vals f = vs1 ++ v :: vs2 ->
    (k v = true <-> stored (geom_of f) c' v (a_cap f - used_ (a_size f) (v :: vs2))).
Definition FRd (keep : list Z -> value -> bool) (nm : list Z) (b : bool) (f : afile) (c' : list Z) : Prop :=
  exists c, file_rep f c /\ exact f c /\ damaged (geom_of f) c c' /\ (b = true -> top_same f c c') /\ kept (keep nm) f c'.

(** ** storing: the same happens to two files that agree where it matters *)
Definition twin (g : geom) (c c' : list Z) : Prop :=
  geom_ok g /\ len c = g_size g * (g_cap g + 1) /\ len c' = len c /\ is_bytes c /\ is_bytes c' /\
  sub 0 (g_size g) c' = sub 0 (g_size g) c.

Lemma set_twin g n r c c' c1 : twin g c c' -> 0 <= n < g_cap g -> slot g c' n = slot g c n ->
  record_ok r -> rec_Size r <= g_size g -> f_set_record g n r c = Ok c1 ->
  exists c1', f_set_record g n r c' = Ok c1' /\ twin g c1 c1' /\ slot g c1' n = slot g c1 n /\
    forall k, 0 <= k < g_cap g -> k <> n -> slot g c1 k = slot g c k /\ slot g c1' k = slot g c' k.
Proof.
  intros (Hg & Hl & Hl' & Hb & Hb' & Hm) Hn Hs Hr Hsz. pose proof Hg as [Hg1 Hg2].
  pose proof (offset_bounds g n _ Hg Hl Hn) as [Ho1 Ho2].
  pose proof (marshal_len r Hr) as ML.
  assert (Hrb : is_bytes (r_data r)) by apply Hr.
  unfold f_set_record. destruct (Z.leb_spec (g_cap g) n), (Z.ltb_spec n 0); try lia. cbn [orb].
  unfold slot in Hs. rewrite Hs. unfold writeRecord. rewrite sub_len by lia.
  destruct (Z.ltb_spec (g_size g) (rec_Size r)); [lia|]. cbn [bind].
  set (b := put 0 (marshal r) (sub (offset g n) (g_size g) c)).
  assert (Lb : len b = g_size g) by (unfold b; rewrite put_len; rewrite ?sub_len; lia).
  assert (Bb : is_bytes b) by (apply is_bytes_put; [now apply marshal_bytes|now apply is_bytes_sub]).
  intros [= <-]. eexists. split; [reflexivity|]. split; [|split].
  - split; [exact Hg|]. split; [rewrite put_len; lia|]. split; [rewrite !put_len; lia|].
    split; [now apply is_bytes_put|]. split; [now apply is_bytes_put|].
    rewrite !sub_put_other by lia. exact Hm.
  - unfold slot. rewrite !sub_put_same by lia. f_equal. now rewrite Hs.
  - intros k Hk Hne. unfold slot. pose proof (offset_bounds g k _ Hg Hl Hk) as [Hk1 Hk2].
    destruct (offset_disjoint g k n Hg ltac:(lia)); rewrite !sub_put_other by lia; auto.
Qed.

Lemma set_records_twin g : forall rs head c c' c1, twin g c c' -> 0 <= head -> head + len rs <= g_cap g ->
  (forall k, head <= k < head + len rs -> slot g c' k = slot g c k) ->
  Forall (fun r => record_ok r /\ rec_Size r <= g_size g) rs ->
  set_records g head rs c = (c1, Ok tt) ->
  exists c1', set_records g head rs c' = (c1', Ok tt) /\ twin g c1 c1' /\
    (forall k, head <= k < head + len rs -> slot g c1' k = slot g c1 k) /\
    (forall k, 0 <= k < g_cap g -> ~ (head <= k < head + len rs) -> slot g c1 k = slot g c k /\ slot g c1' k = slot g c' k).
Proof.
  induction rs as [|r rs IH]; intros head c c' c1 HT H0 Hle Hs HF E; cbn [set_records] in *.
  - injection E as <-. change (len (@nil record)) with 0. exists c'. split; [reflexivity|]. split; [exact HT|].
    split; [intros; lia|intros; split; reflexivity].
  - rewrite len_cons in *. pose proof (len_nonneg rs). pose proof (Forall_inv HF) as (Hr & Hsz). apply Forall_inv_tail in HF.
    destruct (f_set_record g head r c) as [c2| | |] eqn:E2; try discriminate.
    destruct (set_twin g head r c c' c2 HT ltac:(lia) (Hs head ltac:(lia)) Hr Hsz E2) as (c2' & -> & HT2 & Hs2 & Ho2).
    destruct (IH (head + 1) c2 c2' c1 HT2 ltac:(lia) ltac:(lia)) as (c1' & E1 & HT1 & Hs1 & Ho1); auto.
    { intros k Hk. destruct (Ho2 k ltac:(lia) ltac:(lia)) as (-> & ->). apply Hs. lia. }
    exists c1'. split; [exact E1|]. split; [exact HT1|]. split.
    + intros k Hk. destruct (Z.eq_dec k head) as [->|Hne]; [|apply Hs1; lia].
      destruct (Ho1 head ltac:(lia) ltac:(lia)) as (-> & ->). exact Hs2.
    + intros k Hk Hn. destruct (Ho1 k Hk ltac:(lia)) as (-> & ->). apply Ho2; lia.
Qed.

Lemma writeMetadata_len buf m b : is_bytes buf -> writeMetadata buf m = Ok b -> len b = len buf /\ is_bytes b.
Proof.
  intros Hb. unfold writeMetadata. destruct (negb _); [discriminate|].
  pose proof (meta_size_bound m) as Hs. pose proof (meta_size_len m) as Hsl.
  unfold recordHeaderSize. destruct (Z.ltb_spec (len buf) (24 + meta_size m)); [discriminate|]. intros [= <-].
  set (rec := Rec _ _ _ _ _ _).
  assert (Hhl : len (marshal_header rec) = 24) by (unfold len; rewrite marshal_header_length; reflexivity).
  rewrite !put_len by (rewrite ?put_len; lia). split; [reflexivity|].
  apply is_bytes_put; [|apply is_bytes_put; [apply meta_marshal_bytes|exact Hb]].
  unfold marshal_header, is_bytes. rewrite Forall_app. split; [apply header20_bytes|apply be_bytes].
Qed.

Lemma set_meta_twin g m c c' c1 : twin g c c' -> f_set_metadata g m c = Ok c1 ->
  exists c1', f_set_metadata g m c' = Ok c1' /\ twin g c1 c1' /\
    forall k, 0 <= k < g_cap g -> slot g c1 k = slot g c k /\ slot g c1' k = slot g c' k.
Proof.
  intros (Hg & Hl & Hl' & Hb & Hb' & Hm). pose proof Hg as [Hg1 Hg2].
  rewrite !f_set_metadata_in by nia. rewrite Hm.
  destruct (writeMetadata (sub 0 (g_size g) c) m) as [b| | |] eqn:E; try discriminate. cbn [bind]. intros [= <-].
  destruct (writeMetadata_len _ _ _ (is_bytes_sub _ _ _ Hb) E) as (Lb & Bb). rewrite sub_len in Lb by nia.
  eexists. split; [reflexivity|]. split.
  - split; [exact Hg|]. split; [rewrite put_len; nia|]. split; [rewrite !put_len; nia|].
    split; [now apply is_bytes_put|]. split; [now apply is_bytes_put|].
    rewrite !sub_put_same by nia. now rewrite Hm.
  - intros k Hk. unfold slot. pose proof (offset_bounds g k _ Hg Hl Hk) as [Hk1 Hk2].
    rewrite !sub_put_other by lia. auto.
Qed.

Lemma twin_meta g c c' : twin g c c' -> f_metadata g c' = f_metadata g c.
Proof.
  intros (Hg & Hl & Hl' & Hb & Hb' & Hm). pose proof Hg as [Hg1 Hg2].
  rewrite !f_metadata_in by nia. now rewrite Hm.
Qed.

Lemma slot_record g n c c' : slot g c' n = slot g c n -> f_record g n c' = f_record g n c.
Proof. unfold slot, f_record. intros ->. reflexivity. Qed.
Lemma slot_has g n c c' : 0 < g_size g -> -1 <= n -> slot g c' n = slot g c n -> f_has_record g n c' = f_has_record g n c.
Proof.
  intros Hs Hn E. unfold f_has_record. destruct (_ || _); [reflexivity|].
  assert (0 <= offset g n) by (unfold offset; nia).
  rewrite <- !(at_sub (offset g n) (g_size g)) by lia. unfold slot in E. now rewrite E.
Qed.

Lemma write_records_twin g head nr s e d c c' c1 rs : twin g c c' -> 
  iterateRecords s e d (g_size g) = Ok rs -> len rs = nr -> 0 <= head - nr -> head <= g_cap g ->
  (forall k, head - nr <= k < head -> slot g c' k = slot g c k) ->
  Forall (fun r => record_ok r /\ rec_Size r <= g_size g) rs ->
  write_records g head nr s e d c = (c1, Ok true) ->
  exists c1', write_records g head nr s e d c' = (c1', Ok true) /\ twin g c1 c1' /\
    (forall k, head - nr <= k < head -> slot g c1' k = slot g c1 k) /\
    (forall k, 0 <= k < g_cap g -> ~ (head - nr <= k < head) -> slot g c1 k = slot g c k /\ slot g c1' k = slot g c' k).
Proof.
  intros HT Ei Hn H0 Hle Hs HF. unfold write_records. rewrite Ei.
  destruct (set_records g (head - nr) rs c) as [c2 [[]| | |]] eqn:E2; try discriminate.
  destruct (set_records_twin g rs (head - nr) c c' c2 HT ltac:(lia) ltac:(lia)) as (c2' & -> & HT2 & Hs2 & Ho2); auto.
  { intros k Hk. apply Hs. lia. }
  rewrite (twin_meta _ _ _ HT2). destruct (f_metadata g c2) as [m| | |]; try discriminate.
  destruct (f_set_metadata g _ c2) as [c3| | |] eqn:E3; try discriminate. intros [= <-].
  destruct (set_meta_twin _ _ _ _ _ HT2 E3) as (c3' & -> & HT3 & Ho3).
  exists c3'. split; [reflexivity|]. split; [exact HT3|]. split.
  - intros k Hk. destruct (Ho3 k ltac:(lia)) as (-> & ->). apply Hs2. lia.
  - intros k Hk Hnk. destruct (Ho3 k Hk) as (-> & ->). apply Ho2; [exact Hk|lia].
Qed.

(** ** exact hints *)
Lemma set_meta_get g m c c1 : geom_ok g -> len c = g_size g * (g_cap g + 1) -> is_bytes c -> meta_ok m ->
  f_set_metadata g m c = Ok c1 -> f_metadata g c1 = Ok m.
Proof.
  intros [Hg1 Hg2] Hl Hb Hm. rewrite f_set_metadata_in by nia.
  assert (Hsl : len (sub 0 (g_size g) c) = g_size g) by (apply sub_len; nia).
  destruct (writeMetadata_spec (sub 0 (g_size g) c) m Hm (is_bytes_sub _ _ _ Hb) ltac:(lia)) as (b & E & Lb & Bb & Rb & _).
  rewrite E. cbn [bind]. intros [= <-]. rewrite f_metadata_in by (rewrite put_len; nia). rewrite sub_put_same by nia.
  rewrite skipn_all2; [rewrite app_nil_r; exact Rb|]. rewrite sub_length by nia. unfold len in *. lia.
Qed.

Lemma write_records_exact f c v c' :
  file_rep f c -> val_ok v -> used f + nrec (a_size f) v <= a_cap f -> desc (v :: a_vals f) ->
  write_records (geom_of f) (a_cap f - used f) (nrec (a_size f) v)
                (v_start v) (v_end v) (v_data v) c = (c', Ok true) ->
  exact (AF (a_cap f) (a_size f) (v :: a_vals f)) c'.
Proof.
  intros (Hok & m & HR & Hm & Hh & Hn & Hsm) Hv Hfit Hd.
  pose proof Hok as ((Hs & Hc & Hprod) & Hvs & Hu & Hd').
  pose proof (used_nonneg (a_size f) (a_vals f) ltac:(lia)) as Hu0. fold (used f) in Hu0.
  destruct (recs_spec (a_size f) v Hs Hv) as (E & N & L & P & C & K & F).
  unfold write_records. cbn [g_size geom_of]. rewrite E.
  set (rs := recs (a_size f) v) in *. set (nr := nrec (a_size f) v) in *.
  assert (Hsl : slots_of f = repeat None (Z.to_nat (a_cap f - used f - nr)) ++ repeat None (length rs)
                  ++ map Some (flat_map (recs (a_size f)) (a_vals f))).
  { unfold slots_of. rewrite app_assoc, <- repeat_app. do 2 f_equal. unfold len in L. lia. }
  rewrite Hsl in HR.
  destruct (set_records_spec (geom_of f) rs _ _ m c HR) as (c1 & E1 & HR1).
  { eapply Forall_impl; [|exact F]. cbn. tauto. }
  assert (Hpre : len (repeat (@None record) (Z.to_nat (a_cap f - used f - nr))) = a_cap f - used f - nr).
  { unfold len. rewrite repeat_length. lia. }
  rewrite Hpre in E1. rewrite E1. rewrite (rep_meta _ _ _ _ HR1).
  set (m' := next_meta m (a_cap f - used f - nr - 1) (v_start v) (v_end v)).
  assert (Hmo : meta_ok m') .
  { pose proof HR as (_ & _ & _ & _ & (M1 & M2 & M3 & M4 & M5) & _).
    destruct Hv as (V1 & V2 & V3 & V4). unfold meta_ok, m', next_meta.
    cbn [m_size m_head m_start m_end m_smallest]. 
    split; [exact M1|]. split; [unfold is_i64; nia|].
    split; [destruct (m_start m =? 0); assumption|]. split; [assumption|].
    destruct (_ || _); assumption. }
  destruct (f_set_metadata (geom_of f) m' c1) as [c2| | |] eqn:E2; try discriminate. intros [= <-].
  destruct HR1 as (G1 & G2 & G3 & _).
  exists m'. split; [exact (set_meta_get _ _ _ _ G1 G3 G2 Hmo E2)|].
  cbn [m_head m' next_meta a_cap]. unfold used; cbn [a_size a_vals used_]. fold (used f). fold nr. lia.
Qed.

Lemma filter_true {X} (l : list X) : filter (fun _ => true) l = l.
Proof. apply filter_all. reflexivity. Qed.

Lemma fresh_exact size cap c : opts_ok size cap -> createFile size cap = (c, Ok (Geom cap size)) -> exact (AF cap size []) c.
Proof.
  intros H E. destruct (rep_create size cap H) as (c' & E' & HR). rewrite E in E'. injection E' as <-.
  eexists. split; [exact (rep_meta _ _ _ _ HR)|]. cbn. unfold used; cbn. lia.
Qed.

Lemma repr_exact : repr_ok FRx (fun _ _ => true).
Proof.
  constructor.
  - intros nm b f c ((H & _) & _). exact H.
  - intros nm b f c (H & _). now apply file_rep_open.
  - intros nm f c (H & _). now apply file_rep_head.
  - intros nm f c (H & _). now apply has_newest.
  - intros nm size cap H. destruct (file_rep_fresh size cap H) as (c & E & HF). exists c. split; [exact E|].
    split; [exact HF|]. exact (fresh_exact _ _ _ H E).
  - intros nm f c v (HF & _) Hv Hfit Hd _. destruct (write_records_spec f c v HF Hv Hfit Hd) as (c' & E & HF').
    exists c'. split; [exact E|]. split; [exact HF'|]. exact (write_records_exact f c v c' HF Hv Hfit Hd E).
  - intros nm f c H. exact H.
  - intros X cb nm b f c e acc (H & _). rewrite (read_file_spec cb f c e acc H), run_skip.
    now rewrite filter_true.
Qed.

(** ** damaged files *)
Lemma used_app size : forall vs1 vs2, used_ size (vs1 ++ vs2) = used_ size vs1 + used_ size vs2.
Proof. induction vs1 as [|v vs1 IH]; intros vs2; cbn [app used_]; [lia|]. rewrite IH. lia. Qed.

Lemma damaged_twin f c c' : file_rep f c -> damaged (geom_of f) c c' -> twin (geom_of f) c c'.
Proof.
  intros (_ & m & (Hg & Hb & Hl & _) & _) (D1 & D2 & D3 & _). split; [exact Hg|]. split; [exact Hl|].
  split; [exact D1|]. split; [exact Hb|]. split; [exact D2|exact D3].
Qed.

Lemma twin_open g c c' m : twin g c c' -> f_metadata g c = Ok m -> m_size m = g_size g -> openFile c' = Ok g.
Proof.
  intros HT HM E. pose proof (twin_meta _ _ _ HT) as EM. rewrite HM in EM.
  destruct HT as (Hg & Hl & Hl' & Hb & Hb' & Hm). pose proof Hg as [Hg1 Hg2].
  unfold openFile, recordHeaderSize. destruct (Z.ltb_spec (len c') 24); [nia|].
  assert (readMetadata c' = Ok m) as ->.
  { rewrite f_metadata_in in EM by nia.
    replace c' with (sub 0 (g_size g) c' ++ skipn (Z.to_nat (g_size g)) c').
    - apply readMetadata_app; auto. now apply is_bytes_sub.
    - unfold sub. cbn [Z.to_nat skipn]. apply firstn_skipn. }
  cbn [bind]. rewrite E. destruct (Z.ltb_spec (g_size g) 24); [lia|].
  rewrite Hl', Hl. rewrite Z.mul_comm, Z.div_mul by lia.
  destruct g; cbn in *. f_equal. f_equal. lia.
Qed.

(** what can be read from a damaged slot *)
Lemma damaged_slot f c c' n : file_rep f c -> damaged (geom_of f) c c' -> 0 <= n < a_cap f ->
  f_record (geom_of f) n c' = Err \/ f_record (geom_of f) n c' = f_record (geom_of f) n c.
Proof.
  intros _ (_ & _ & _ & D) Hn. destruct (D n Hn) as [E|E].
  - right. unfold f_record. destruct (_ || _); [reflexivity|]. exact E.
  - left. unfold f_record. destruct (_ || _); [reflexivity|]. exact E.
Qed.
Lemma free_slot f c n : file_rep f c -> 0 <= n < a_cap f - used f -> f_record (geom_of f) n c = Err.
Proof.
  intros (Hok & m & HR & _) Hn. pose proof Hok as ((Hs & _) & _ & Hu & _).
  pose proof (used_nonneg (a_size f) (a_vals f) ltac:(lia)). fold (used f) in *.
  apply (rep_get_none _ _ _ _ _ HR); [cbn [g_cap geom_of]; lia|].
  unfold slots_of. rewrite app_nth1 by (rewrite repeat_length; lia). apply nth_repeat.
Qed.
Lemma used_slot f c i r : file_rep f c -> nth_error (flat_map (recs (a_size f)) (a_vals f)) i = Some r ->
  f_record (geom_of f) (a_cap f - used f + Z.of_nat i) c = Ok r.
Proof.
  intros (Hok & m & HR & _) Hi. pose proof Hok as ((Hs & Hc & _) & Hv & Hu & _).
  pose proof (flat_recs_len (a_size f) (a_vals f) Hs Hv) as L. fold (used f) in L.
  assert (Hlt : (i < length (flat_map (recs (a_size f)) (a_vals f)))%nat) by (apply nth_error_Some; congruence).
  apply (rep_get _ _ _ _ _ r HR); cbn [g_cap geom_of].
  - unfold len in L. lia.
  - unfold slots_of. rewrite app_nth2 by (rewrite repeat_length; lia). rewrite repeat_length.
    replace (Z.to_nat _ - _)%nat with i by lia.
    exact (nth_error_nth _ _ None (map_nth_error Some _ _ Hi)).
Qed.
Lemma stored_rep f c vs1 v vs2 : file_rep f c -> a_vals f = vs1 ++ v :: vs2 ->
  stored (geom_of f) c v (a_cap f - used_ (a_size f) (v :: vs2)).
Proof.
  intros HF E. pose proof HF as (((Hs & _) & Hv & _) & _). split.
  - rewrite E in Hv. apply Forall_app in Hv. destruct Hv as (_ & Hv). exact (Forall_inv Hv).
  - intros j r Hj. cbn [g_size geom_of] in Hj.
    assert (Hv1 : Forall val_ok vs1) by (rewrite E in Hv; apply Forall_app in Hv; tauto).
    pose proof (flat_recs_len (a_size f) vs1 Hs Hv1) as L1.
    replace (a_cap f - used_ (a_size f) (v :: vs2) + Z.of_nat j)
      with (a_cap f - used f + Z.of_nat (length (flat_map (recs (a_size f)) vs1) + j)).
    2:{ unfold used. rewrite E, used_app. unfold len in L1. lia. }
    apply used_slot; [exact HF|]. rewrite E, flat_map_app. cbn [flat_map].
    rewrite nth_error_app2 by lia. replace (_ + j - _)%nat with j by lia.
    rewrite nth_error_app1; [exact Hj|]. apply nth_error_Some. congruence.
Qed.

(** *** the head pointer *)
Lemma walk_down g c : forall fuel head, 0 <= head < g_cap g -> head + 1 < Z.of_nat fuel ->
  exists h, head_walk fuel g c true (-1) head = Ok h /\ -1 <= h < head.
Proof.
  induction fuel as [|fuel IH]; intros head Hh Hf; [lia|]. cbn [head_walk].
  destruct (Z.eqb_spec (head + -1) (g_cap g)); [lia|].
  destruct (Z.ltb_spec (head + -1) 0); [exists (-1); split; [reflexivity|lia]|].
  destruct (Bool.eqb (f_has_record g (head + -1) c) true).
  - destruct (IH (head + -1) ltac:(lia) ltac:(lia)) as (h & -> & ?). exists h. split; [reflexivity|lia].
  - exists (head + -1). split; [reflexivity|lia].
Qed.
Lemma walk_up g c : forall fuel head, 0 <= head < g_cap g -> g_cap g - head < Z.of_nat fuel ->
  exists h, head_walk fuel g c false 1 head = Ok h /\ head <= h < g_cap g /\
    forall n, head < n <= h -> f_has_record g n c = false.
Proof.
  induction fuel as [|fuel IH]; intros head Hh Hf; [lia|]. cbn [head_walk].
  destruct (Z.eqb_spec (head + 1) (g_cap g)); [exists head; split; [f_equal; lia|]; split; [lia|intros; lia]|].
  destruct (Z.ltb_spec (head + 1) 0); [lia|].
  destruct (f_has_record g (head + 1) c) eqn:Eh; cbn [Bool.eqb].
  - exists head. split; [f_equal; lia|]. split; [lia|intros; lia].
  - destruct (IH (head + 1) ltac:(lia) ltac:(lia)) as (h & -> & ? & Hn). exists h. split; [reflexivity|]. split; [lia|].
    intros k Hk. destruct (Z.eq_dec k (head + 1)) as [->|]; [exact Eh|]. apply Hn. lia.
Qed.
Lemma no_record g n c : 0 < g_size g -> f_has_record g n c = false -> f_record g n c = Err.
Proof.
  intros Hs. unfold f_has_record, f_record. destruct (Z.leb_spec (g_cap g) n), (Z.ltb_spec n 0); cbn [orb]; auto.
  intros H1. apply negb_false_iff, Z.eqb_eq in H1. apply parse_empty.
  rewrite at_sub; [exact H1|unfold offset; nia|lia].
Qed.

Lemma head_damaged f c c' : file_rep f c -> exact f c -> damaged (geom_of f) c c' ->
  exists h, getHeadPointer (geom_of f) c' = Ok h /\ -1 <= h < a_cap f /\
    forall n, a_cap f - used f <= n <= h -> f_record (geom_of f) n c' = Err.
Proof.
  intros HF (m & HM & Hh) HD. pose proof (damaged_twin _ _ _ HF HD) as HT.
  pose proof HF as (((Hs & Hc & _) & _ & Hu & _) & _).
  pose proof (used_nonneg (a_size f) (a_vals f) ltac:(lia)) as Hu0. fold (used f) in Hu0.
  unfold getHeadPointer. rewrite (twin_meta _ _ _ HT), HM. cbn [bind]. rewrite Hh.
  destruct (Z.ltb_spec (a_cap f - used f - 1) 0).
  { eexists. split; [reflexivity|]. split; [lia|intros; lia]. }
  destruct (f_has_record (geom_of f) (a_cap f - used f - 1) c').
  - destruct (walk_down (geom_of f) c' (Z.to_nat (g_cap (geom_of f)) + 2) (a_cap f - used f - 1)) as (h & -> & ?);
      [cbn [g_cap geom_of]; lia|cbn [g_cap geom_of]; lia|]. exists h. split; [reflexivity|]. split; [lia|intros; lia].
  - destruct (walk_up (geom_of f) c' (Z.to_nat (g_cap (geom_of f)) + 2) (a_cap f - used f - 1)) as (h & -> & ? & Hn);
      [cbn [g_cap geom_of]; lia|cbn [g_cap geom_of]; lia|]. cbn [g_cap geom_of] in *.
    exists h. split; [reflexivity|]. split; [lia|]. intros n Hn'. apply no_record; [cbn; lia|]. apply Hn. lia.
Qed.

(** *** reading *)
Lemma skip_err {A} (cb : callback A) g c e acc : forall n head fuel,
  (forall k, head <= k < head + Z.of_nat n -> f_record g k c = Err) -> head + Z.of_nat n <= g_cap g ->
  read_new cb (n + fuel) g c e head acc = read_new cb fuel g c e (head + Z.of_nat n) acc.
Proof.
  induction n as [|n IH]; intros head fuel H Hle.
  - cbn [Nat.add]. now rewrite Z.add_0_r.
  - cbn [Nat.add read_new]. destruct (Z.ltb_spec head (g_cap g)); [|lia]. cbn [negb].
    rewrite (H head ltac:(lia)). rewrite IH; [f_equal; lia| |lia]. intros k Hk. apply H. lia.
Qed.

Definition obs (g : geom) (c : list Z) (n : Z) : option record :=
  match f_record g n c with Ok r => Some r | _ => None end.
Lemma obs_spec g c n : f_record g n c = match obs g c n with Some r => Ok r | None => Err end.
Proof. unfold obs. destruct (f_record_cases g n c) as [(r & ->)| ->]; reflexivity. Qed.

Lemma nth_error_mapseq {X} (h : nat -> X) len0 i : nth_error (map h (seq 0 len0)) i = if Nat.ltb i len0 then Some (h i) else None.
Proof.
  destruct (Nat.ltb_spec i len0) as [Hl|Hl].
  - rewrite (map_nth_error h i (seq 0 len0) (d := i)); [reflexivity|].
    rewrite (nth_error_nth' _ 0%nat) by (rewrite seq_length; exact Hl). now rewrite seq_nth.
  - apply nth_error_None. rewrite map_length, seq_length. exact Hl.
Qed.
Lemma Forall2_nth {X Y} (P : X -> Y -> Prop) : forall l1 l2, length l1 = length l2 ->
  (forall i x y, nth_error l1 i = Some x -> nth_error l2 i = Some y -> P x y) -> Forall2 P l1 l2.
Proof.
  induction l1 as [|x l1 IH]; intros [|y l2] Hl H; try discriminate; constructor.
  - exact (H 0%nat x y eq_refl eq_refl).
  - apply IH; [now injection Hl|]. intros i. exact (H (S i)).
Qed.

Lemma segs g c size (k : value -> bool) : 79 <= size < 65560 -> g_size g = size ->
  forall vs head, Forall val_ok vs -> 0 <= head -> head + used_ size vs = g_cap g ->
  (forall j r, nth_error (flat_map (recs size) vs) j = Some r ->
     f_record g (head + Z.of_nat j) c = Err \/ f_record g (head + Z.of_nat j) c = Ok r) ->
  (forall vs1 v vs2, vs = vs1 ++ v :: vs2 -> (k v = true <-> stored g c v (g_cap g - used_ size (v :: vs2)))) ->
  exists sgs, Forall2 (fun v sg => Forall2 seen (recs size v) sg /\ existsb is_none sg = negb (k v)) vs sgs /\
    tailo g c head (concat sgs).
Proof.
  intros Hs Hg. induction vs as [|v vs IH]; intros head HV H0 Hsum Hrec Hk.
  { exists []. split; [constructor|]. cbn [concat used_] in *. split; [exact H0|]. change (len (@nil (option record))) with 0.
    split; [lia|]. intros [|i] o; discriminate. }
  pose proof (Forall_inv HV) as Hv. apply Forall_inv_tail in HV. cbn [used_ flat_map] in *.
  destruct (recs_spec size v Hs Hv) as (_ & _ & L & P & _).
  destruct (IH (head + nrec size v)) as (sgs & HF & HT); auto; try lia.
  { intros j r Hj. specialize (Hrec (length (recs size v) + j)%nat r).
    rewrite nth_error_app2 in Hrec by lia. replace (_ + j - _)%nat with j in Hrec by lia.
    replace (head + nrec size v + Z.of_nat j) with (head + Z.of_nat (length (recs size v) + j)) by (unfold len in L; lia).
    exact (Hrec Hj). }
  { intros vs1 w vs2 ->. apply (Hk (v :: vs1)). reflexivity. }
  set (sg := map (fun i => obs g c (head + Z.of_nat i)) (seq 0 (length (recs size v)))).
  assert (Lsg : length sg = length (recs size v)) by (unfold sg; now rewrite map_length, seq_length).
  assert (Hsg : forall i o, nth_error sg i = Some o -> (i < length (recs size v))%nat /\ o = obs g c (head + Z.of_nat i)).
  { intros i o. unfold sg. rewrite nth_error_mapseq. destruct (Nat.ltb_spec i (length (recs size v))); [|discriminate].
    intros [= <-]. auto. }
  assert (Hseen : Forall2 seen (recs size v) sg).
  { apply Forall2_nth; [now rewrite Lsg|]. intros i r o Hr Ho. apply Hsg in Ho. destruct Ho as (Hi & ->).
    specialize (Hrec i r). rewrite nth_error_app1 in Hrec by exact Hi. unfold seen, obs.
    destruct (Hrec Hr) as [-> | ->]; auto. }
  exists (sg :: sgs). split; [constructor; [|exact HF]|].
  - split; [exact Hseen|].
    pose proof (Hk [] v vs eq_refl) as Hkv. cbn [used_] in Hkv.
    replace (g_cap g - (nrec size v + used_ size vs)) with head in Hkv by lia.
    destruct (existsb is_none sg) eqn:Ee.
    + destruct (k v) eqn:Ekv; [|reflexivity]. exfalso. destruct Hkv as (Hkv & _). destruct (Hkv eq_refl) as (_ & Hst).
      apply existsb_exists in Ee. destruct Ee as (o & Ho & En). apply In_nth_error in Ho. destruct Ho as (i & Ho).
      apply Hsg in Ho. destruct Ho as (Hi & ->).
      destruct (nth_error (recs size v) i) as [r|] eqn:Er; [|apply nth_error_None in Er; lia].
      rewrite Hg in Hst. specialize (Hst i r Er). unfold obs in En. rewrite Hst in En. discriminate.
    + destruct (k v) eqn:Ekv; [reflexivity|]. exfalso. destruct Hkv as (_ & Hkv). discriminate Hkv.
      split; [exact Hv|]. rewrite Hg. intros i r Hr.
      assert (Hi : (i < length (recs size v))%nat) by (apply nth_error_Some; congruence).
      specialize (Hrec i r). rewrite nth_error_app1 in Hrec by exact Hi. destruct (Hrec Hr) as [E|E]; [|exact E]. exfalso.
      assert (Hin : In (obs g c (head + Z.of_nat i)) sg).
      { unfold sg. apply in_map_iff. exists i. split; [reflexivity|]. apply in_seq. lia. }
      assert (X : existsb is_none sg = true); [|congruence].
      apply existsb_exists. eexists. split; [exact Hin|]. unfold obs. now rewrite E.
  - cbn [concat]. destruct HT as (T1 & T2 & T3). split; [exact H0|].
    split; [rewrite len_app; unfold len in *; lia|].
    intros i o Ho. destruct (Nat.ltb_spec i (length sg)) as [Hi|Hi].
    + rewrite nth_error_app1 in Ho by exact Hi. apply Hsg in Ho. destruct Ho as (_ & ->). apply obs_spec.
    + rewrite nth_error_app2 in Ho by exact Hi. specialize (T3 _ _ Ho).
      replace (head + Z.of_nat i) with (head + nrec size v + Z.of_nat (i - length sg)) by (unfold len in L; lia). exact T3.
Qed.

Lemma filter_filter_comm {X} (p q : X -> bool) l : filter p (filter q l) = filter q (filter p l).
Proof.
  induction l as [|x l IH]; [reflexivity|]. cbn [filter].
  destruct (q x) eqn:Eq, (p x) eqn:Ep; cbn [filter]; rewrite ?Eq, ?Ep, IH; reflexivity.
Qed.

Lemma read_file_damaged {A} (cb : callback A) k f c c' e acc :
  file_rep f c -> exact f c -> damaged (geom_of f) c c' -> kept k f c' ->
  read_file cb (geom_of f) c' e acc =
  if e <=? match oldest_end f with Some o => o | None => 0 end then (acc, Ok false)
  else run_cb (skip_cb k cb) acc (filter (fun v => v_end v <? e) (a_vals f)).
Proof.
  intros HF HX HD HK. destruct (head_damaged f c c' HF HX HD) as (h & HH & Hhb & Hherr).
  pose proof (damaged_twin _ _ _ HF HD) as HT.
  pose proof HF as (((Hs & Hc & _) & Hv & Hu & _) & m & HR & Hm & _ & _ & Hsm).
  pose proof (used_nonneg (a_size f) (a_vals f) ltac:(lia)) as Hu0. fold (used f) in Hu0.
  unfold read_file. rewrite (twin_meta _ _ _ HT), (rep_meta _ _ _ _ HR), Hsm, HH.
  destruct (_ <=? _); [reflexivity|]. cbn [g_cap geom_of].
  set (first := a_cap f - used f) in *.
  assert (Main : read_new cb (Z.to_nat (a_cap f - first) + 1) (geom_of f) c' e first acc =
                 run_cb cb acc (filter (fun v => v_end v <? e) (filter k (a_vals f)))).
  { destruct (segs (geom_of f) c' (a_size f) k Hs eq_refl (a_vals f) first Hv) as (sgs & HFs & HTs).
    - lia.
    - unfold first, used; cbn [g_cap geom_of]. lia.
    - intros j r Hj. pose proof (used_slot f c j r HF Hj) as Hr. fold first in Hr.
      pose proof (f_record_ok_lt _ _ _ _ Hr) as Hlt. cbn [g_cap geom_of] in Hlt.
      destruct (damaged_slot f c c' (first + Z.of_nat j) HF HD Hlt) as [E|E]; [now left|right; now rewrite E].
    - exact HK.
    - rewrite (read_values_o cb (geom_of f) c' e (a_size f) (fun v => negb (k v)) Hs (a_vals f) sgs first acc _ Hv HFs HTs).
      + f_equal. f_equal. apply filter_ext. intros v. apply negb_involutive.
      + destruct HTs as (_ & T2 & _). unfold len in T2. cbn [g_cap geom_of] in T2. lia. }
  rewrite run_skip. rewrite filter_filter_comm. rewrite <- Main.
  destruct (Z_le_gt_dec (h + 1) first) as [Hle|Hgt].
  - replace (Z.to_nat (a_cap f - (h + 1)) + 1)%nat with (Z.to_nat (first - (h + 1)) + (Z.to_nat (a_cap f - first) + 1))%nat by lia.
    rewrite skip_err.
    + f_equal. lia.
    + intros n Hn. destruct (damaged_slot f c c' n HF HD ltac:(lia)) as [E|E]; [exact E|]. rewrite E.
      apply free_slot; [exact HF|]. fold first. lia.
    + cbn [g_cap geom_of]. lia.
  - replace (Z.to_nat (a_cap f - first) + 1)%nat with (Z.to_nat (h + 1 - first) + (Z.to_nat (a_cap f - (h + 1)) + 1))%nat by lia.
    symmetry. rewrite skip_err.
    + f_equal. lia.
    + intros n Hn. apply Hherr. lia.
    + cbn [g_cap geom_of]. lia.
Qed.

(** *** the damaged representation *)
Lemma damaged_refl g c : is_bytes c -> damaged g c c.
Proof. intros H. split; [reflexivity|]. split; [exact H|]. split; [reflexivity|auto]. Qed.

Lemma stored_ext g c c' v p : 
  (forall n, p <= n < p + len (recs (g_size g) v) -> f_record g n c' = f_record g n c) -> (stored g c v p <-> stored g c' v p).
Proof.
  intros H. unfold stored. split; intros (Hv & Hr); (split; [exact Hv|]); intros j r Hj;
    assert (Hl : (j < length (recs (g_size g) v))%nat) by (apply nth_error_Some; congruence);
    specialize (H (p + Z.of_nat j) ltac:(unfold len; lia)); specialize (Hr j r Hj); congruence.
Qed.

Lemma used_suffix size vs1 v vs2 : 79 <= size -> used_ size (v :: vs2) <= used_ size (vs1 ++ v :: vs2).
Proof. intros H. rewrite used_app. pose proof (used_nonneg size vs1 H). lia. Qed.

Lemma repr_damaged keep : repr_ok (FRd keep) keep.
Proof.
  constructor.
  - intros nm b f c' (c & (H & _) & _). exact H.
  - intros nm b f c' (c & HF & _ & HD & _). pose proof HF as (_ & m & HR & Hm & _).
    exact (twin_open _ _ _ m (damaged_twin _ _ _ HF HD) (rep_meta _ _ _ _ HR) Hm).
  - intros nm f c' (c & HF & (m & HM & Hh) & HD & HTop & _). specialize (HTop eq_refl).
    pose proof HF as (((Hs & Hc & _) & _ & Hu & _) & _).
    pose proof (used_nonneg (a_size f) (a_vals f) ltac:(lia)) as Hu0. fold (used f) in Hu0.
    pose proof (file_rep_head f c HF) as HH. unfold getHeadPointer in HH |- *.
    rewrite (twin_meta _ _ _ (damaged_twin _ _ _ HF HD)). rewrite HM in HH |- *. cbn [bind] in *. rewrite Hh in *.
    destruct (Z.ltb_spec (a_cap f - used f - 1) 0); [reflexivity|].
    destruct (has_newest f c HF) as (Hhas & _).
    assert (Hfree : f_has_record (geom_of f) (a_cap f - used f - 1) c = false).
    { destruct HF as (Hok & m' & HR & _). rewrite (rep_has _ _ _ _ _ HR). cbn [g_cap geom_of].
      destruct (Z.leb_spec 0 (a_cap f - used f - 1)); [|lia]. destruct (Z.ltb_spec (a_cap f - used f - 1) (a_cap f)); [|lia]. cbn [andb].
      unfold slots_of. rewrite app_nth1 by (rewrite repeat_length; lia). now rewrite nth_repeat. }
    rewrite (slot_has (geom_of f) _ c c') by (try apply HTop; cbn; lia). rewrite Hfree.
    cbn [g_cap geom_of]. replace (Z.to_nat (a_cap f) + 2)%nat with (S (Z.to_nat (a_cap f) + 1)) by lia.
    cbn [head_walk g_cap geom_of]. replace (a_cap f - used f - 1 + 1) with (a_cap f - used f) by lia.
    destruct (Z.eqb_spec (a_cap f - used f) (a_cap f)); [reflexivity|].
    destruct (Z.ltb_spec (a_cap f - used f) 0); [lia|].
    rewrite (slot_has (geom_of f) _ c c') by (try apply HTop; cbn; lia). rewrite Hhas.
    destruct (a_vals f) eqn:Ev; [|reflexivity]. exfalso. unfold used in *. rewrite Ev in *. cbn [used_] in *. lia.
  - intros nm f c' (c & HF & _ & HD & HTop & _). specialize (HTop eq_refl).
    pose proof HF as (((Hs & Hc & _) & _ & Hu & _) & _).
    pose proof (used_nonneg (a_size f) (a_vals f) ltac:(lia)) as Hu0. fold (used f) in Hu0.
    destruct (has_newest f c HF) as (Hhas & Hrec).
    destruct (Z_lt_ge_dec (a_cap f - used f) (a_cap f)) as [Hlt|Hge].
    + assert (Es : slot (geom_of f) c' (a_cap f - used f) = slot (geom_of f) c (a_cap f - used f)) by (apply HTop; lia).
      rewrite (slot_has (geom_of f) _ c c') by (try apply Es; cbn; lia). rewrite (slot_record _ _ _ _ Es). auto.
    + unfold f_has_record in *. cbn [g_cap geom_of] in *. destruct (Z.leb_spec (a_cap f) (a_cap f - used f)); [|lia].
      cbn [orb] in *. split; [exact Hhas|]. intros v vs E. rewrite E in Hhas. discriminate.
  - intros nm size cap H. destruct (file_rep_fresh size cap H) as (c & E & HF). exists c. split; [exact E|].
    exists c. split; [exact HF|]. split; [exact (fresh_exact _ _ _ H E)|]. destruct HF as (_ & m & (_ & Hb & _) & _).
    split; [now apply damaged_refl|]. split; [intros _ n _ _; reflexivity|]. intros [|x xs] y ys; discriminate.
  - intros nm f c' v (c & HF & HX & HD & HTop & HK) Hv Hfit Hd Hkv. specialize (HTop eq_refl).
    pose proof HF as (((Hs & Hc & _) & Hvs & Hu & _) & _).
    pose proof (used_nonneg (a_size f) (a_vals f) ltac:(lia)) as Hu0. fold (used f) in Hu0.
    destruct (write_records_spec f c v HF Hv Hfit Hd) as (c1 & E1 & HF1).
    pose proof (write_records_exact f c v c1 HF Hv Hfit Hd E1) as HX1.
    destruct (recs_spec (a_size f) v Hs Hv) as (Ei & _ & L & Pn & _ & _ & F).
    destruct (write_records_twin (geom_of f) (a_cap f - used f) (nrec (a_size f) v) (v_start v) (v_end v) (v_data v) c c' c1
                (recs (a_size f) v) (damaged_twin _ _ _ HF HD) Ei L) as (c1' & E1' & HT1 & Hin & Hout); auto.
    { lia. } { cbn [g_cap geom_of]. lia. }
    { intros k Hk. apply HTop; lia. }
    { eapply Forall_impl; [|exact F]. cbn. tauto. }
    exists c1'. split; [exact E1'|]. exists c1. split; [exact HF1|]. split; [exact HX1|].
    cbn [g_cap geom_of] in *.
    set (f1 := AF (a_cap f) (a_size f) (v :: a_vals f)) in *.
    assert (Eu : used f1 = nrec (a_size f) v + used f) by reflexivity.
    change (geom_of f1) with (geom_of f). split; [|split].
    + destruct HT1 as (_ & _ & T3 & _ & T5 & T6). split; [exact T3|]. split; [exact T5|]. split; [exact T6|].
      cbn [g_cap geom_of]. intros n Hn.
      destruct (Z_lt_ge_dec n (a_cap f - used f - nrec (a_size f) v)) as [?|?];
        [|destruct (Z_lt_ge_dec n (a_cap f - used f)) as [?|?]]; [|left; f_equal; apply Hin; lia|].
      * destruct (Hout n Hn ltac:(lia)) as (-> & ->). destruct HD as (_ & _ & _ & D). now apply D.
      * destruct (Hout n Hn ltac:(lia)) as (-> & ->). destruct HD as (_ & _ & _ & D). now apply D.
    + intros _ n Hn Hle. cbn [a_cap f1] in Hn, Hle. rewrite Eu in Hle. change (geom_of f1) with (geom_of f).
      destruct (Z_lt_ge_dec n (a_cap f - used f - nrec (a_size f) v)) as [?|?]; [|apply Hin; lia].
      destruct (Hout n Hn ltac:(lia)) as (-> & ->). apply HTop; lia.
    + intros [|w vs1] u vs2 E; cbn [f1 a_vals] in E.
      * injection E as <- <-. split; [intros _|auto]. change (geom_of f1) with (geom_of f). cbn [a_cap a_size f1].
        pose proof (stored_rep f1 c1 [] v (a_vals f) HF1 eq_refl) as Hst. change (geom_of f1) with (geom_of f) in Hst. cbn [a_cap a_size f1] in Hst.
        eapply stored_ext; [|exact Hst]. intros n Hn. cbn [used_ g_size geom_of] in Hn. fold (used f) in Hn.
        apply slot_record. symmetry. apply Hin. lia.
      * injection E as <- E. rewrite (HK vs1 u vs2 E). change (geom_of f1) with (geom_of f). cbn [a_cap a_size f1].
        assert (Hu1 : val_ok u) by (rewrite E in Hvs; apply Forall_app in Hvs; destruct Hvs as (_ & Hvs); exact (Forall_inv Hvs)).
        destruct (recs_spec (a_size f) u Hs Hu1) as (_ & _ & Lu & _).
        pose proof (used_suffix (a_size f) vs1 u vs2 ltac:(lia)) as Hsuf. rewrite <- E in Hsuf. fold (used f) in Hsuf. cbn [used_] in *.
        pose proof (used_nonneg (a_size f) vs2 ltac:(lia)).
        apply stored_ext. intros n Hn. cbn [g_size geom_of] in Hn.
        apply slot_record. apply Hout; lia.
  - intros nm f c' (c & HF & HX & HD & _ & HK). exists c. split; [exact HF|]. split; [exact HX|]. split; [exact HD|].
    split; [discriminate|exact HK].
  - intros X cb nm b f c' e acc (c & HF & HX & HD & _ & HK). exact (read_file_damaged cb (keep nm) f c c' e acc HF HX HD HK).
Qed.
