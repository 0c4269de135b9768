(** One data file: its bytes represent an abstract file (MetricSpec.afile). *)
From Coq Require Import ZArith List Lia Bool.
From Verif Require Import Base Crc Record RecordSpec RecordProofs Pb Meta PbProofs
  File FileProofs Metric MetricSpec.
Import ListNotations.
Open Scope Z_scope.

(** a value the API can be given *)
Definition val_ok (v : value) : Prop :=
  is_i64 (v_start v) /\ is_i64 (v_end v) /\ v_end v <> 0 /\ is_bytes (v_data v).

(** the records of a value *)
Definition recs (size : Z) (v : value) : list record :=
  match iterateRecords (v_start v) (v_end v) (v_data v) size with Ok l => l | _ => [] end.

Definition slots_of (f : afile) : list (option record) :=
  repeat None (Z.to_nat (a_cap f - used f)) ++
  map Some (flat_map (recs (a_size f)) (a_vals f)).

Definition geom_of (f : afile) : geom := Geom (a_cap f) (a_size f).

(** strictly decreasing end times *)
Fixpoint desc (vs : list value) : Prop :=
  match vs with
  | v :: ((w :: _) as r) => v_end w < v_end v /\ desc r
  | _ => True
  end.

Definition afile_ok (f : afile) : Prop :=
  opts_ok (a_size f) (a_cap f) /\ Forall val_ok (a_vals f) /\ used f <= a_cap f /\
  desc (a_vals f).

Definition file_rep (f : afile) (c : list Z) : Prop :=
  afile_ok f /\
  exists m, rep (geom_of f) (slots_of f) m c /\ m_size m = a_size f /\
    -1 <= m_head m < a_cap f /\ (m_head m = -1 -> used f = a_cap f) /\
    m_smallest m = match oldest_end f with Some o => o | None => 0 end.

(** ** records of a value *)
Lemma recs_spec size v : 79 <= size < 65560 -> val_ok v ->
  iterateRecords (v_start v) (v_end v) (v_data v) size = Ok (recs size v) /\
  numRecords (len (v_data v)) size = Ok (nrec size v) /\
  len (recs size v) = nrec size v /\ 1 <= nrec size v /\
  concat (map r_data (recs size v)) = v_data v /\
  kinds_ok (map r_kind (recs size v)) /\
  Forall (fun r => record_ok r /\ r_start r = v_start v /\ r_end r = v_end v /\
                   rec_Size r <= size) (recs size v).
Proof.
  intros Hs (H1 & H2 & _ & H3).
  destruct (iterate_spec (v_start v) (v_end v) (v_data v) size ltac:(unfold size_ok; lia) H1 H2 H3)
    as (l & nr & E & N & L & Hn & C & K & F).
  assert (Er : recs size v = l) by (unfold recs; now rewrite E).
  assert (En : nr = nrec size v).
  { unfold numRecords, nrec, recordHeaderSize in *.
    destruct ((size - 24 <? 0) || negb (u16 (size - 24) =? size - 24)) eqn:X.
    - exfalso. apply orb_true_iff in X. destruct X as [X|X]; [apply Z.ltb_lt in X; lia|].
      rewrite u16_id in X by lia. rewrite Z.eqb_refl in X. discriminate.
    - destruct (len (v_data v) =? 0); [congruence|].
      destruct (Z.eqb_spec (size - 24) 0); [discriminate|]. congruence. }
  rewrite Er, <- En. exact (conj E (conj N (conj L (conj Hn (conj C (conj K F)))))).
Qed.

Lemma nrec_pos size v : 79 <= size -> 1 <= nrec size v.
Proof.
  intros H. unfold nrec. destruct (Z.eqb_spec (len (v_data v)) 0); [lia|].
  pose proof (len_nonneg (v_data v)). apply Z.div_le_lower_bound; lia.
Qed.
Lemma used_nonneg size vs : 79 <= size -> 0 <= used_ size vs.
Proof. intros H. induction vs; cbn; [lia|]. pose proof (nrec_pos size a H). lia. Qed.

Lemma flat_recs_len size vs : 79 <= size < 65560 -> Forall val_ok vs ->
  len (flat_map (recs size) vs) = used_ size vs.
Proof.
  intros Hs. induction vs as [|v vs IH]; intros H; cbn [flat_map used_]; [reflexivity|].
  inversion H as [|? ? Hv Hvs]; subst. rewrite len_app, IH by auto.
  destruct (recs_spec size v Hs Hv) as (_ & _ & L & _). lia.
Qed.

(** ** storing records *)
Lemma upd_middle {A} (pre : list A) x y rest :
  upd (length pre) y (pre ++ x :: rest) = pre ++ y :: rest.
Proof. induction pre; cbn; congruence. Qed.

Lemma set_records_spec g : forall rs pre rest m c,
  rep g (pre ++ repeat None (length rs) ++ rest) m c ->
  Forall (fun r => record_ok r /\ rec_Size r <= g_size g) rs ->
  exists c', set_records g (len pre) rs c = (c', Ok tt) /\
    rep g (pre ++ map Some rs ++ rest) m c'.
Proof.
  induction rs as [|r rs IH]; intros pre rest m c HR HF; cbn [set_records length repeat map app] in *.
  - exists c. split; [reflexivity|exact HR].
  - inversion HF as [|? ? [Hr Hsz] HF']; subst.
    pose proof HR as (Hg & _ & _ & Hs & _).
    assert (0 <= len pre < g_cap g).
    { rewrite <- Hs. unfold len. rewrite app_length. cbn [length]. lia. }
    destruct (rep_set g _ m c (len pre) r HR ltac:(lia) Hr Hsz) as (c1 & E & HR1).
    rewrite E. unfold len in HR1. rewrite Nat2Z.id, upd_middle in HR1.
    replace (pre ++ Some r :: repeat None (length rs) ++ rest)
      with ((pre ++ [Some r]) ++ repeat None (length rs) ++ rest) in HR1
      by (now rewrite <- app_assoc).
    destruct (IH (pre ++ [Some r]) rest m c1 HR1 HF') as (c2 & E2 & HR2).
    rewrite len_app in E2. change (len [Some r]) with 1 in E2.
    exists c2. split; [exact E2|]. rewrite <- app_assoc in HR2. exact HR2.
Qed.

(** ** the geometry and position of a represented file *)
Lemma slots_len f : afile_ok f -> len (slots_of f) = a_cap f.
Proof.
  intros ((Hs & Hc & _) & Hv & Hu & _). unfold slots_of. rewrite len_app.
  pose proof (flat_recs_len (a_size f) (a_vals f) Hs Hv) as L. fold (used f) in L.
  pose proof (used_nonneg (a_size f) (a_vals f) ltac:(lia)). fold (used f) in *.
  unfold len in *. rewrite repeat_length, map_length. lia.
Qed.

Lemma slots_occupied f : afile_ok f -> occupied_from (slots_of f) (a_cap f - used f).
Proof.
  intros Hok. pose proof (slots_len f Hok) as L.
  destruct Hok as ((Hs & Hc & _) & Hv & Hu & _).
  pose proof (used_nonneg (a_size f) (a_vals f) ltac:(lia)). fold (used f) in *.
  split; [lia|]. intros n Hn. rewrite L in Hn. unfold slots_of.
  destruct (Z_lt_ge_dec n (a_cap f - used f)) as [Hlt|Hge].
  - rewrite app_nth1 by (rewrite repeat_length; lia). rewrite nth_repeat. split; [discriminate|lia].
  - rewrite app_nth2 by (rewrite repeat_length; lia). rewrite repeat_length.
    pose proof (flat_recs_len (a_size f) (a_vals f) Hs Hv) as Lf. fold (used f) in Lf.
    set (fl := flat_map (recs (a_size f)) (a_vals f)) in *.
    assert (Hi : (Z.to_nat n - Z.to_nat (a_cap f - used f) < length fl)%nat) by (unfold len in Lf; lia).
    destruct (nth_error fl (Z.to_nat n - Z.to_nat (a_cap f - used f))) as [r|] eqn:E.
    + rewrite (nth_error_nth _ _ None (map_nth_error Some _ _ E)). split; [lia|reflexivity].
    + apply nth_error_None in E. lia.
Qed.

Lemma file_rep_open f c : file_rep f c -> openFile c = Ok (geom_of f).
Proof. intros (_ & m & HR & Hm & _). exact (rep_open _ _ _ _ HR Hm). Qed.

Lemma file_rep_head f c : file_rep f c -> getHeadPointer (geom_of f) c = Ok (a_cap f - used f - 1).
Proof.
  intros (Hok & m & HR & Hm & Hh & Hn & _).
  rewrite (getHeadPointer_spec _ _ _ _ (a_cap f - used f) HR (slots_occupied f Hok) Hh).
  - reflexivity.
  - intros E. specialize (Hn E). lia.
Qed.

Lemma file_rep_fresh size cap : opts_ok size cap ->
  exists c, createFile size cap = (c, Ok (Geom cap size)) /\ file_rep (AF cap size []) c.
Proof.
  intros H. destruct (rep_create size cap H) as (c & E & HR). exists c. split; [exact E|].
  pose proof H as (Hs & Hc & _). unfold file_rep, afile_ok. cbn [a_cap a_size a_vals].
  split; [split; [exact H|]; split; [constructor|]; split; [cbn; lia|exact I]|].
  exists (Meta size (cap - 1) 0 0 0). cbn [m_size m_head m_smallest].
  unfold slots_of, used; cbn [a_cap a_size a_vals used_ flat_map map]. rewrite app_nil_r, Z.sub_0_r.
  split; [exact HR|]. split; [reflexivity|]. split; [lia|]. split; [lia|]. reflexivity.
Qed.

(** the newest record of a nonempty file *)
Lemma newest_slot f v vs : afile_ok f -> a_vals f = v :: vs ->
  exists r, nth (Z.to_nat (a_cap f - used f)) (slots_of f) None = Some r /\ r_end r = v_end v.
Proof.
  intros ((Hs & Hc & _) & Hv & Hu & _) E. rewrite E in Hv. inversion Hv as [|? ? Hv1 Hv2]; subst.
  destruct (recs_spec (a_size f) v Hs Hv1) as (_ & _ & L & P & _ & _ & F).
  destruct (recs (a_size f) v) as [|r rs] eqn:Er; [change (len (@nil record)) with 0 in L; lia|].
  exists r. unfold slots_of. rewrite E. cbn [flat_map]. rewrite Er.
  rewrite app_nth2 by (rewrite repeat_length; lia). rewrite repeat_length, Nat.sub_diag.
  cbn. split; [reflexivity|]. inversion F as [|? ? (? & ? & ? & ?) ?]; subst. assumption.
Qed.

(** ** writing *)
Lemma rev_cons_oldest v vs : 
  match rev (v :: vs) with [] => None | w :: _ => Some (v_end w) end =
  match rev vs with [] => Some (v_end v) | w :: _ => Some (v_end w) end.
Proof. cbn [rev]. destruct (rev vs) eqn:E; reflexivity. Qed.

Lemma desc_le_oldest : forall vs v o, desc (v :: vs) ->
  match rev vs with [] => None | w :: _ => Some (v_end w) end = Some o -> o < v_end v.
Proof.
  induction vs as [|w vs IH]; intros v o Hd Ho; [discriminate|].
  destruct Hd as [Hlt Hd]. rewrite rev_cons_oldest in Ho.
  destruct (rev vs) as [|x l] eqn:Er.
  - injection Ho as <-. exact Hlt.
  - specialize (IH w o Hd). specialize (IH Ho). lia.
Qed.

Lemma write_records_spec f c v :
  file_rep f c -> val_ok v -> used f + nrec (a_size f) v <= a_cap f ->
  desc (v :: a_vals f) ->
  exists c', write_records (geom_of f) (a_cap f - used f) (nrec (a_size f) v)
               (v_start v) (v_end v) (v_data v) c = (c', Ok true) /\
             file_rep (AF (a_cap f) (a_size f) (v :: a_vals f)) c'.
Proof.
  intros (Hok & m & HR & Hm & Hh & Hn & Hsm) Hv Hfit Hd.
  pose proof Hok as ((Hs & Hc & Hprod) & Hvs & Hu & Hd').
  pose proof (used_nonneg (a_size f) (a_vals f) ltac:(lia)) as Hu0. fold (used f) in Hu0.
  destruct (recs_spec (a_size f) v Hs Hv) as (E & N & L & P & C & K & F).
  unfold write_records. cbn [g_size geom_of]. rewrite E.
  set (rs := recs (a_size f) v) in *. set (nr := nrec (a_size f) v) in *.
  assert (Hlr : length rs = Z.to_nat nr) by (unfold len in L; lia).
  assert (Hsl : slots_of f = repeat None (Z.to_nat (a_cap f - used f - nr)) ++ repeat None (length rs)
                  ++ map Some (flat_map (recs (a_size f)) (a_vals f))).
  { unfold slots_of. rewrite app_assoc, <- repeat_app. do 2 f_equal. lia. }
  rewrite Hsl in HR.
  destruct (set_records_spec (geom_of f) rs _ _ m c HR) as (c1 & E1 & HR1).
  { eapply Forall_impl; [|exact F]. cbn. tauto. }
  assert (Hpre : len (repeat (@None record) (Z.to_nat (a_cap f - used f - nr))) = a_cap f - used f - nr).
  { unfold len. rewrite repeat_length. lia. }
  rewrite Hpre in E1. rewrite E1. rewrite (rep_meta _ _ _ _ HR1).
  set (m' := next_meta m (a_cap f - used f - nr - 1) (v_start v) (v_end v)).
  assert (Hmo : meta_ok m') .
  { pose proof HR as (_ & _ & _ & _ & (M1 & M2 & M3 & M4 & M5) & _).
    destruct Hv as (V1 & V2 & V3 & V4). unfold meta_ok, m', next_meta.
    cbn [m_size m_head m_start m_end m_smallest]. 
    split; [exact M1|]. split; [unfold is_i64; nia|].
    split; [destruct (m_start m =? 0); assumption|]. split; [assumption|].
    destruct (_ || _); assumption. }
  destruct (rep_set_meta _ _ _ _ m' HR1 Hmo) as (c2 & E2 & HR2).
  rewrite E2. exists c2. split; [reflexivity|].
  split.
  { unfold afile_ok. cbn [a_cap a_size a_vals]. split; [exact (conj Hs (conj Hc Hprod))|]. split; [constructor; auto|].
    split; [unfold used; cbn [a_size a_vals used_]; fold (used f); fold nr; lia|exact Hd]. }
  exists m'. unfold geom_of in *. cbn [a_cap a_size a_vals].
  split.
  { unfold slots_of. cbn [a_cap a_size a_vals flat_map]. fold rs.
    unfold used; cbn [a_size a_vals used_]. fold (used f). fold nr.
    rewrite map_app. replace (a_cap f - (nr + used f)) with (a_cap f - used f - nr) by lia.
    exact HR2. }
  cbn [m_size m_head m_smallest m' next_meta].
  split; [exact Hm|]. split; [lia|].
  split; [intros; unfold used; cbn [a_size a_vals used_]; fold (used f); fold nr; lia|].
  unfold oldest_end. cbn [a_vals]. rewrite rev_cons_oldest. rewrite Hsm. unfold oldest_end.
  destruct (rev (a_vals f)) as [|w l] eqn:Er.
  - rewrite Z.eqb_refl. cbn [orb]. reflexivity.
  - assert (v_end w < v_end v).
    { apply (desc_le_oldest (a_vals f) v); [exact Hd|]. now rewrite Er. }
    assert (v_end w <> 0).
    { assert (In w (a_vals f)) as Hin by (apply in_rev; rewrite Er; left; reflexivity).
      rewrite Forall_forall in Hvs. apply (Hvs w Hin). }
    destruct (Z.eqb_spec (v_end w) 0); [contradiction|].
    destruct (Z.ltb_spec (v_end v) (v_end w)); [lia|]. reflexivity.
Qed.

(** ** reading *)
(** the records from slot [head] on are [rs] *)
Definition tail_is (g : geom) (c : list Z) (head : Z) (rs : list record) : Prop :=
  0 <= head /\ head + len rs = g_cap g /\
  forall i r, nth_error rs i = Some r -> f_record g (head + Z.of_nat i) c = Ok r.

Lemma tail_cons g c head r rs : tail_is g c head (r :: rs) ->
  head < g_cap g /\ f_record g head c = Ok r /\ tail_is g c (head + 1) rs.
Proof.
  intros (H0 & Hl & H). rewrite len_cons in Hl. pose proof (len_nonneg rs).
  split; [lia|]. split.
  - specialize (H 0%nat r eq_refl). now rewrite Z.add_0_r in H.
  - split; [lia|]. split; [lia|]. intros i r' Hi. specialize (H (S i) r' Hi).
    replace (head + 1 + Z.of_nat i) with (head + Z.of_nat (S i)) by lia. exact H.
Qed.

Lemma tail_app g c : forall rs1 head rs2, tail_is g c head (rs1 ++ rs2) -> tail_is g c (head + len rs1) rs2.
Proof.
  induction rs1 as [|r rs1 IH]; intros head rs2 H; cbn [app] in H.
  - change (len (@nil record)) with 0. now rewrite Z.add_0_r.
  - apply tail_cons in H. destruct H as (_ & _ & H). apply IH in H. rewrite len_cons.
    now replace (head + (1 + len rs1)) with (head + 1 + len rs1) by lia.
Qed.

(** skipping records that are too new *)
Lemma read_skip {A} (cb : callback A) g c e : forall rs1 rs2 head acc fuel,
  tail_is g c head (rs1 ++ rs2) -> Forall (fun r => e <= r_end r) rs1 ->
  (length (rs1 ++ rs2) <= fuel)%nat ->
  exists fuel', (length rs2 <= fuel')%nat /\
    read_new cb fuel g c e head acc = read_new cb fuel' g c e (head + len rs1) acc.
Proof.
  induction rs1 as [|r rs1 IH]; intros rs2 head acc fuel HT HF Hfu.
  - exists fuel. change (len (@nil record)) with 0. rewrite Z.add_0_r. auto.
  - cbn [app] in *. apply tail_cons in HT. destruct HT as (Hlt & Hr & HT).
    inversion HF as [|? ? Hre HF']; subst. cbn [length] in Hfu.
    destruct fuel as [|fuel]; [lia|]. cbn [read_new].
    destruct (Z.ltb_spec head (g_cap g)); [|lia]. cbn [negb]. rewrite Hr.
    destruct (Z.leb_spec e (r_end r)); [|lia].
    destruct (IH rs2 (head + 1) acc fuel HT HF' ltac:(lia)) as (fuel' & Hf' & E).
    exists fuel'. split; [exact Hf'|]. rewrite E. rewrite len_cons. f_equal. lia.
Qed.

(** the inner loop over continue records and the end record *)
Lemma read_conts {A} (cb : callback A) g c e s en : forall n rsm rs2 head buf acc fuel,
  tail_is g c head (rsm ++ rs2) ->
  map r_kind rsm = repeat 4 n ++ [5] ->
  Forall (fun r => r_start r = s /\ r_end r = en) rsm ->
  (length (rsm ++ rs2) <= fuel)%nat ->
  exists fuel', (length rs2 <= fuel')%nat /\
    read_more cb fuel g c e head buf acc =
    match cb acc (Val s en (buf ++ concat (map r_data rsm))) with
    | (acc, Ok true) => read_new cb fuel' g c e (head + len rsm) acc
    | other => other
    end.
Proof.
  induction n as [|n IH]; intros rsm rs2 head buf acc fuel HT HK HF Hfu.
  - destruct rsm as [|r [|? ?]]; cbn in HK; try discriminate. injection HK as HK.
    cbn [app] in *. apply tail_cons in HT. destruct HT as (Hlt & Hr & HT).
    inversion HF as [|? ? (Hs1 & Hs2) _]; subst. cbn [length] in Hfu.
    destruct fuel as [|fuel]; [lia|]. exists fuel. split; [lia|].
    cbn [read_more]. rewrite Hr, HK. cbn [map concat]. rewrite app_nil_r.
    change (5 =? kind_continue) with false. change (5 =? kind_end) with true. cbn [negb].
    rewrite len_cons. change (len (@nil record)) with 0. rewrite Z.add_0_r. reflexivity.
  - destruct rsm as [|r rsm]; cbn in HK; [discriminate|]. injection HK as HK HK'.
    cbn [app] in *. apply tail_cons in HT. destruct HT as (Hlt & Hr & HT).
    inversion HF as [|? ? (Hs1 & Hs2) HF']; subst. cbn [length] in Hfu.
    destruct fuel as [|fuel]; [lia|].
    destruct (IH rsm rs2 (head + 1) (buf ++ r_data r) acc fuel HT HK' HF' ltac:(lia)) as (fuel' & Hf' & E).
    exists fuel'. split; [exact Hf'|]. cbn [read_more]. rewrite Hr, HK.
    change (4 =? kind_continue) with true. cbn match. rewrite E.
    cbn [map concat]. rewrite <- app_assoc. rewrite len_cons.
    replace (head + (1 + len rsm)) with (head + 1 + len rsm) by lia. reflexivity.
Qed.

(** one value *)
Lemma read_value {A} (cb : callback A) g c e size v rs2 head acc fuel :
  79 <= size < 65560 -> val_ok v ->
  tail_is g c head (recs size v ++ rs2) ->
  (length (recs size v ++ rs2) <= fuel)%nat ->
  exists fuel', (length rs2 <= fuel')%nat /\
    read_new cb fuel g c e head acc =
    if e <=? v_end v then read_new cb fuel' g c e (head + len (recs size v)) acc
    else match cb acc v with
         | (acc, Ok true) => read_new cb fuel' g c e (head + len (recs size v)) acc
         | other => other
         end.
Proof.
  intros Hs Hv HT Hfu.
  destruct (recs_spec size v Hs Hv) as (_ & _ & L & P & C & K & F).
  destruct (Z.leb_spec e (v_end v)) as [Hle|Hgt].
  - apply read_skip; auto. eapply Forall_impl; [|exact F]. cbn. intros a (_ & _ & -> & _). exact Hle.
  - destruct (recs size v) as [|r rs] eqn:Er; [change (len (@nil record)) with 0 in L; lia|].
    cbn [app] in *. apply tail_cons in HT. destruct HT as (Hlt & Hr & HT).
    inversion F as [|? ? (Hr1 & Hr2 & Hr3 & _) F']; subst.
    destruct fuel as [|fuel]; [cbn in Hfu; lia|]. cbn [length] in Hfu.
    assert (Ev : v = Val (v_start v) (v_end v) (concat (map r_data (r :: rs)))).
    { rewrite C. now destruct v. }
    remember (map r_kind (r :: rs)) as ks eqn:K1. destruct K as [|n].
    + (* complete *)
      destruct rs; [|cbn in K1; discriminate].
      exists fuel. split; [cbn in *; lia|]. cbn [read_new].
      destruct (Z.ltb_spec head (g_cap g)); [|lia]. cbn [negb]. rewrite Hr.
      destruct (Z.leb_spec e (r_end r)); [lia|].
      cbn [map] in K1. injection K1 as K1. rewrite <- K1. change (2 =? kind_complete) with true. cbn match.
      rewrite len_cons. change (len (@nil record)) with 0. rewrite Z.add_0_r.
      cbn [map concat] in Ev. rewrite app_nil_r in Ev. rewrite Hr2, Hr3, <- Ev. reflexivity.
    + (* begin, continue*, end *)
      cbn [map app] in K1. injection K1 as K1 K2.
      destruct (read_conts cb g c e (v_start v) (v_end v) n rs rs2 (head + 1) (r_data r) acc fuel HT) as (fuel' & Hf' & E).
      * symmetry. exact K2.
      * eapply Forall_impl; [|exact F']. cbn. intuition.
      * cbn in *. lia.
      * exists fuel'. split; [exact Hf'|]. cbn [read_new].
        destruct (Z.ltb_spec head (g_cap g)); [|lia]. cbn [negb]. rewrite Hr.
        destruct (Z.leb_spec e (r_end r)); [lia|]. rewrite <- K1.
        change (3 =? kind_complete) with false. change (3 =? kind_begin) with true. cbn [negb]. cbn match.
        rewrite E. cbn [map concat] in Ev. rewrite <- Ev. rewrite len_cons.
        replace (head + (1 + len rs)) with (head + 1 + len rs) by lia. reflexivity.
Qed.

Lemma read_values {A} (cb : callback A) g c e size : 79 <= size < 65560 ->
  forall vs head acc fuel, Forall val_ok vs ->
  tail_is g c head (flat_map (recs size) vs) ->
  (length (flat_map (recs size) vs) <= fuel)%nat ->
  read_new cb fuel g c e head acc = run_cb cb acc (filter (fun v => v_end v <? e) vs).
Proof.
  intros Hs. induction vs as [|v vs IH]; intros head acc fuel HV HT Hfu; cbn [flat_map filter] in *.
  - destruct HT as (_ & Hl & _). change (len (@nil record)) with 0 in Hl.
    destruct fuel; cbn [read_new run_cb]; destruct (Z.ltb_spec head (g_cap g)); try lia; reflexivity.
  - inversion HV as [|? ? Hv HVs]; subst.
    destruct (read_value cb g c e size v _ head acc fuel Hs Hv HT Hfu) as (fuel' & Hf' & E).
    rewrite E. pose proof (tail_app _ _ _ _ _ HT) as HT'.
    destruct (Z.leb_spec e (v_end v)), (Z.ltb_spec (v_end v) e); try lia.
    + apply IH; auto.
    + cbn [run_cb]. destruct (cb acc v) as [acc' [[|]| | |]]; try reflexivity. apply IH; auto.
Qed.

Lemma read_file_spec {A} (cb : callback A) f c e acc : file_rep f c ->
  read_file cb (geom_of f) c e acc =
  if e <=? match oldest_end f with Some o => o | None => 0 end then (acc, Ok false)
  else run_cb cb acc (filter (fun v => v_end v <? e) (a_vals f)).
Proof.
  intros HF. pose proof (file_rep_head f c HF) as HH. destruct HF as (Hok & m & HR & Hm & Hh & Hn & Hsm).
  unfold read_file. rewrite (rep_meta _ _ _ _ HR), Hsm, HH. cbn [g_cap geom_of].
  destruct (_ <=? _); [reflexivity|].
  replace (a_cap f - used f - 1 + 1) with (a_cap f - used f) by lia.
  pose proof Hok as ((Hs & Hc & _) & Hv & Hu & Hd).
  pose proof (used_nonneg (a_size f) (a_vals f) ltac:(lia)) as Hu0. fold (used f) in Hu0.
  pose proof (flat_recs_len (a_size f) (a_vals f) Hs Hv) as L. fold (used f) in L.
  apply (read_values cb (geom_of f) c e (a_size f) Hs); auto.
  - split; [lia|]. split; [cbn [g_cap geom_of]; lia|]. intros i r Hi.
    assert (Hlt : (i < length (flat_map (recs (a_size f)) (a_vals f)))%nat)
      by (apply nth_error_Some; congruence).
    apply (rep_get _ _ _ _ _ r HR); cbn [g_cap geom_of].
    + unfold len in L. lia.
    + unfold slots_of. rewrite app_nth2 by (rewrite repeat_length; lia). rewrite repeat_length.
      replace (Z.to_nat _ - _)%nat with i by lia.
      exact (nth_error_nth _ _ None (map_nth_error Some _ _ Hi)).
  - unfold len in L. lia.
Qed.
