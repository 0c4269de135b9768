(** Properties C01-C11: names, record/metadata codecs, single files. *)
From Coq Require Import ZArith List Lia Bool.
From Verif Require Import Base Crc CrcProofs Record RecordSpec RecordProofs
  Pb Meta PbRecord PbProofs PbSafe Convert ConvertSpec ConvertProofs File FileProofs.
Import ListNotations.
Open Scope Z_scope.

(** * C01 *)
Theorem C01_metric_name_roundtrip : forall m : list Z,
  dirToMetric (metricToDir [] m) = Ok m.
Proof. exact roundtrip_. Qed.
Print Assumptions C01_metric_name_roundtrip.

Theorem C01_metric_dirs_distinct : forall m m' : list Z,
  metricToDir [] m = metricToDir [] m' -> m = m'.
Proof. exact metricToDir_inj_. Qed.
Print Assumptions C01_metric_dirs_distinct.

(** "a..b/%.": dots, slash and percent all present; the directory is
    "a/%2eb%2f%25/%2e". *)
Example C01_example : let m := [97;46;46;98;47;37;46] in
  metricToDir [] m = [97;47;37;50;101;98;37;50;102;37;50;53;47;37;50;101]
  /\ dirToMetric (metricToDir [] m) = Ok m.
Proof. vm_compute. split; reflexivity. Qed.

(** * C02 *)
Theorem C02_components_safe : forall m : list Z, m <> [] ->
  Forall safe_component (components (metricToDir [] m)).
Proof. exact metricToDir_components_. Qed.
Print Assumptions C02_components_safe.

(** under any root the metric's directory is the root followed by those
    components *)
Theorem C02_under_root : forall root m : list Z,
  metricToDir root m = root ++ metricToDir [] m.
Proof. exact metricToDir_base. Qed.
Print Assumptions C02_under_root.

Theorem C02_path_determines_metric_and_number : forall m m' n n',
  is_i64 n -> is_i64 n' ->
  metricToPath [] m n = metricToPath [] m' n' -> m = m' /\ n = n'.
Proof. exact metricToPath_inj_. Qed.
Print Assumptions C02_path_determines_metric_and_number.

(** the name given to data file [n] is recognised as data file [n] when the
    directory is listed *)
Theorem C02_file_number_roundtrip : forall n, is_i64 n ->
  dataFileNumber (itoa n ++ s_data) = Some n.
Proof. exact dataFileNumber_itoa. Qed.
Print Assumptions C02_file_number_roundtrip.

Example C02_example : (* "../x" *)
  components (metricToDir [] [46;46;47;120]) =
    [[37;50;101;37;50;101]; [37;50;102;120]]
  /\ dataFileNumber [49;50;46;100;97;116;97] = Some 12.
Proof. vm_compute. split; reflexivity. Qed.

(** * C03 *)
Theorem C03_record_roundtrip : forall r rest, record_ok r ->
  parse (marshal r ++ rest) = Ok r.
Proof. exact parse_marshal. Qed.
Print Assumptions C03_record_roundtrip.

Example C03_example : record_ok (Rec 1 3 (-7) 1500000000000 2 [0;255]).
Proof.
  unfold record_ok, is_i64, is_bytes, is_byte, len. cbn [r_version r_kind r_start r_end r_size r_data length].
  repeat split; try lia. repeat constructor; lia.
Qed.
Example C03_example_run :
  parse (marshal (Rec 1 3 (-7) 1500000000000 2 [0;255]) ++ [9;9]) =
  Ok (Rec 1 3 (-7) 1500000000000 2 [0;255]).
Proof. vm_compute. reflexivity. Qed.

(** * C04 *)
Theorem C04_split_lossless : forall start end_ data size,
  24 < size < 65560 -> is_i64 start -> is_i64 end_ -> is_bytes data ->
  exists recs nr,
    iterateRecords start end_ data size = Ok recs /\
    numRecords (len data) size = Ok nr /\
    len recs = nr /\ 1 <= nr /\
    concat (map r_data recs) = data /\
    kinds_ok (map r_kind recs) /\
    Forall (fun r => record_ok r /\ r_start r = start /\ r_end r = end_ /\
                     rec_Size r <= size) recs.
Proof. exact iterate_spec. Qed.
Print Assumptions C04_split_lossless.

Example C04_example : exists recs,
  iterateRecords 5 6 [1;2;3;4;5;6;7] 27 = Ok recs /\
  map r_data recs = [[1;2;3];[4;5;6];[7]] /\ map r_kind recs = [3;4;5].
Proof. eexists. vm_compute. repeat split. Qed.

(** * C05 *)
Theorem C05_single_byte_corruption_detected : forall r rest i b,
  record_ok r -> is_bytes rest -> is_byte b ->
  (i < 24 + length (r_data r))%nat ->
  ~ (18 <= i < 20)%nat ->
  nth i (marshal r ++ rest) 0 <> b ->
  parse (set_byte i b (marshal r ++ rest)) = Err.
Proof. exact parse_corrupt. Qed.
Print Assumptions C05_single_byte_corruption_detected.

Example C05_example :
  let r := Rec 1 2 10 20 3 [7;8;9] in
  parse (set_byte 25 99 (marshal r ++ [0;0;0])) = Err /\
  parse (set_byte 25 8 (marshal r ++ [0;0;0])) = Ok r.
Proof. vm_compute. split; reflexivity. Qed.

(** * C06 *)
Theorem C06_metadata_roundtrip : forall m,
  is_i64 (m_size m) -> is_i64 (m_head m) -> is_i64 (m_start m) ->
  is_i64 (m_end m) -> is_i64 (m_smallest m) ->
  meta_unmarshal (meta_marshal m) = Ok m /\ meta_size m = len (meta_marshal m).
Proof. intros. split; [now apply meta_roundtrip_|apply meta_size_len]. Qed.
Print Assumptions C06_metadata_roundtrip.

Example C06_example : let m := Meta 1024 (-1) 0 (2^63 - 1) (- 2^63) in
  is_i64 (m_head m) /\ is_i64 (m_end m) /\ is_i64 (m_smallest m) /\
  meta_unmarshal (meta_marshal m) = Ok m /\ meta_size m = len (meta_marshal m) /\ meta_size m = 35.
Proof. cbv zeta. unfold is_i64; cbn [m_head m_end m_smallest]. repeat split; try lia; vm_compute; reflexivity. Qed.

(** * C07 *)
Definition same_up_to_zero_sign (a b : Z) : Prop :=
  a = b \/ ((a = 0 \/ a = 2 ^ 63) /\ (b = 0 \/ b = 2 ^ 63)).

Theorem C07_data_record_roundtrip : forall m,
  is_i64 (d_start m) -> is_i64 (d_end m) -> is_i64 (d_obs m) -> is_i64 (d_merged m) ->
  0 <= d_min m < 2 ^ 64 -> 0 <= d_max m < 2 ^ 64 ->
  len (drec_marshal m) < 2 ^ 62 ->
  exists m', drec_unmarshal (drec_marshal m) = Ok m' /\
    d_start m' = d_start m /\ d_end m' = d_end m /\ d_obs m' = d_obs m /\
    d_dist m' = d_dist m /\ d_kind m' = d_kind m /\
    d_minid m' = d_minid m /\ d_maxid m' = d_maxid m /\ d_merged m' = d_merged m /\
    same_up_to_zero_sign (d_min m') (d_min m) /\
    same_up_to_zero_sign (d_max m') (d_max m).
Proof.
  intros m H1 H2 H3 H4 H5 H6 H7. eexists. split; [now apply drec_roundtrip_|].
  cbn [d_start d_end d_obs d_dist d_kind d_min d_max d_minid d_maxid d_merged].
  assert (forall v, same_up_to_zero_sign (norm_zero v) v) as Z.
  { intros v. unfold same_up_to_zero_sign, norm_zero, fbits_zero.
    destruct (Z.eqb_spec v 0), (Z.eqb_spec v (2^63)); cbn [orb]; auto. }
  repeat split; auto.
Qed.
Print Assumptions C07_data_record_roundtrip.

(** the announced size (Size) is the number of bytes MarshalTo writes *)
Theorem C07_announced_size : forall m,
  len (d_dist m) < 2^62 -> len (d_kind m) < 2^62 ->
  len (d_minid m) < 2^62 -> len (d_maxid m) < 2^62 ->
  0 <= d_min m < 2^64 -> 0 <= d_max m < 2^64 ->
  drec_size m = len (drec_marshal m).
Proof. intros. now apply drec_size_len. Qed.
Print Assumptions C07_announced_size.

Example C07_example :
  let m := DRec 1 2 (-3) [1;2;3] [116] 4607182418800017408 (2^63) [9] [] 4 in
  drec_unmarshal (drec_marshal m) =
    Ok (DRec 1 2 (-3) [1;2;3] [116] 4607182418800017408 0 [9] [] 4).
Proof. vm_compute. reflexivity. Qed.

(** * C08: false of the code (a length that wraps int makes the slice
    expression or the next index panic) *)
Theorem C08_decode_no_panic_refuted :
  (exists d, is_bytes d /\ drec_unmarshal d = Panic) /\
  (exists d, is_bytes d /\ meta_unmarshal d = Panic).
Proof.
  split.
  - exists [34; 255;255;255;255;255;255;255;255; 127].
    split; [repeat constructor; unfold is_byte; lia|vm_compute; reflexivity].
  - exists ([8;0;122] ++ put_varint (2^63-1-10)).
    split; [|vm_compute; reflexivity].
    change (is_bytes [8;0;122;245;255;255;255;255;255;255;255;127]).
    repeat constructor; unfold is_byte; lia.
Qed.
Print Assumptions C08_decode_no_panic_refuted.

(** Partial: decoding any bytes terminates, and it does not panic when among
    any 8 consecutive bytes one is below 128 (no varint of 57 bits or more).
    Missing: inputs with longer varints (refuted above). *)
Theorem C08_decode_no_panic_partial : forall d, len d < 2 ^ 62 ->
  (drec_unmarshal d <> Diverge /\ meta_unmarshal d <> Diverge) /\
  ((forall i, 0 <= i -> exists k, 0 <= k < 8 /\ at_ (i + k) d < 128) ->
   drec_unmarshal d <> Panic /\ meta_unmarshal d <> Panic).
Proof.
  intros d H. destruct (drec_unmarshal_safe d H), (meta_unmarshal_safe d H). repeat split; auto.
Qed.
Print Assumptions C08_decode_no_panic_partial.

Example C08_example : (* a group, an unknown bytes field, a truncated varint *)
  drec_unmarshal [123; 8; 1; 124; 122; 2; 200; 1; 8] = Err /\
  drec_unmarshal [123; 8; 1; 124; 122; 2; 200; 1; 8; 5] =
    Ok (DRec 5 0 0 [] [] 0 0 [] [] 0).
Proof. vm_compute. split; reflexivity. Qed.

(** * C09 *)
Theorem C09_created_geometry : forall size cap c g,
  is_i64 size -> is_i64 cap -> createFile size cap = (c, Ok g) ->
  g_cap g = cap /\ g_size g = size /\ 24 <= size /\ 1 <= cap /\
  openFile c = Ok g /\
  (forall n, f_has_record g n c = false) /\
  (* every slot is inside the file and behind the metadata area *)
  (forall n, 0 <= n < cap -> size <= offset g n /\ offset g n + size <= len c) /\
  (* distinct slots do not overlap *)
  (forall n k, 0 <= n < cap -> 0 <= k < cap -> n <> k ->
     offset g n + size <= offset g k \/ offset g k + size <= offset g n).
Proof.
  intros size cap c g Hs Hc E. destruct (create_ok _ _ _ _ Hs Hc E) as (-> & H1 & H2 & H3 & H4 & H5 & H6 & H7).
  cbn [g_cap g_size]. repeat split; auto; unfold offset; cbn [g_size]; try nia.
Qed.
Print Assumptions C09_created_geometry.

(** usual geometries are accepted *)
Theorem C09_accepted : forall size cap,
  79 <= size < 65560 -> 1 <= cap -> size * cap < 2 ^ 31 ->
  exists c, createFile size cap = (c, Ok (Geom cap size)).
Proof.
  intros size cap H1 H2 H3. destruct (rep_create size cap) as (c & E & _); [repeat split; lia|eauto].
Qed.
Print Assumptions C09_accepted.

Example C09_example :
  match createFile 80 3 with
  | (c, Ok g) => g = Geom 3 80 /\ openFile c = Ok g
  | _ => False end.
Proof. vm_compute. split; reflexivity. Qed.

(** * C10.  [rep g slots m c] says: the bytes [c] are a file of geometry [g] whose
    metadata and every occupied slot parse; the property is about any such file,
    and its premises are re-established by the operations.  *)
Theorem C10_store_record : forall g slots m c n r,
  rep g slots m c -> 0 <= n < g_cap g -> record_ok r -> rec_Size r <= g_size g ->
  exists c', f_set_record g n r c = Ok c' /\
    rep g (upd (Z.to_nat n) (Some r) slots) m c' /\
    f_metadata g c' = f_metadata g c /\
    f_record g n c' = Ok r /\ f_has_record g n c' = true /\
    (forall k, k <> n -> f_record g k c' = f_record g k c /\
                         f_has_record g k c' = f_has_record g k c).
Proof.
  intros g slots m c n r HR Hn Hr Hs.
  destruct (rep_set g slots m c n r HR Hn Hr Hs) as (c' & E & HR').
  exists c'. split; [exact E|]. split; [exact HR'|].
  pose proof HR as (Hg & Hb & Hl & Hsl & Hm & HM & H).
  assert (Hlen : (Z.to_nat n < length slots)%nat) by (unfold len in Hsl; lia).
  split; [rewrite (rep_meta _ _ _ _ HR), (rep_meta _ _ _ _ HR'); reflexivity|].
  split. { eapply rep_get; eauto. rewrite nth_upd by auto. now rewrite Nat.eqb_refl. }
  split. { rewrite (rep_has _ _ _ _ n HR'). destruct (Z.leb_spec 0 n), (Z.ltb_spec n (g_cap g)); try lia.
    cbn [andb]. rewrite nth_upd by auto. now rewrite Nat.eqb_refl. }
  intros k Hk.
  assert (Hnth : 0 <= k -> nth (Z.to_nat k) (upd (Z.to_nat n) (Some r) slots) None = nth (Z.to_nat k) slots None).
  { intros. rewrite nth_upd by auto. destruct (Nat.eqb_spec (Z.to_nat n) (Z.to_nat k)); [lia|reflexivity]. }
  split.
  - destruct (Z_lt_ge_dec k 0) as [Hk0|Hk0];
      [unfold f_record; destruct (Z.ltb_spec k 0); [|lia]; now rewrite orb_true_r|].
    destruct (Z_lt_ge_dec k (g_cap g)) as [Hk1|Hk1];
      [|unfold f_record; destruct (Z.leb_spec (g_cap g) k); [reflexivity|lia]].
    destruct (nth (Z.to_nat k) slots None) as [rk|] eqn:Ek.
    + rewrite (rep_get _ _ _ _ k rk HR), (rep_get _ _ _ _ k rk HR'); auto; try lia.
      now rewrite Hnth by lia.
    + rewrite (rep_get_none _ _ _ _ k HR), (rep_get_none _ _ _ _ k HR'); auto; try lia.
      now rewrite Hnth by lia.
  - rewrite (rep_has _ _ _ _ k HR), (rep_has _ _ _ _ k HR').
    destruct (Z.leb_spec 0 k); cbn [andb]; [|reflexivity]. now rewrite Hnth.
Qed.
Print Assumptions C10_store_record.

Theorem C10_store_metadata : forall g slots m c m',
  rep g slots m c -> meta_ok m' ->
  exists c', f_set_metadata g m' c = Ok c' /\ rep g slots m' c' /\
    f_metadata g c' = Ok m' /\
    (forall k, f_record g k c' = f_record g k c /\
               f_has_record g k c' = f_has_record g k c).
Proof.
  intros g slots m c m' HR Hm'.
  destruct (rep_set_meta g slots m c m' HR Hm') as (c' & E & HR').
  exists c'. split; [exact E|]. split; [exact HR'|]. split; [apply (rep_meta _ _ _ _ HR')|].
  intros k. split.
  - destruct (Z_lt_ge_dec k 0) as [Hk0|Hk0];
      [unfold f_record; destruct (Z.ltb_spec k 0); [|lia]; now rewrite orb_true_r|].
    destruct (Z_lt_ge_dec k (g_cap g)) as [Hk1|Hk1];
      [|unfold f_record; destruct (Z.leb_spec (g_cap g) k); [reflexivity|lia]].
    destruct (nth (Z.to_nat k) slots None) as [rk|] eqn:Ek.
    + rewrite (rep_get _ _ _ _ k rk HR), (rep_get _ _ _ _ k rk HR'); auto; lia.
    + rewrite (rep_get_none _ _ _ _ k HR), (rep_get_none _ _ _ _ k HR'); auto; lia.
  - now rewrite (rep_has _ _ _ _ k HR), (rep_has _ _ _ _ k HR').
Qed.
Print Assumptions C10_store_metadata.

(** slot numbers outside [0, cap) are refused by all three operations *)
Theorem C10_outside_slots_refused : forall g c n r,
  n < 0 \/ g_cap g <= n ->
  f_record g n c = Err /\ f_set_record g n r c = Err /\ f_has_record g n c = false.
Proof.
  intros g c n r H. unfold f_record, f_set_record, f_has_record.
  assert ((g_cap g <=? n) || (n <? 0) = true) as ->; [|auto].
  apply orb_true_iff. rewrite Z.leb_le, Z.ltb_lt. lia.
Qed.
Print Assumptions C10_outside_slots_refused.

(** a created file is such a file: the premises are met, and they stay met *)
Theorem C10_created_files_are_good : forall size cap,
  79 <= size < 65560 -> 1 <= cap -> size * cap < 2 ^ 31 ->
  exists c, createFile size cap = (c, Ok (Geom cap size)) /\
    rep (Geom cap size) (repeat None (Z.to_nat cap)) (Meta size (cap - 1) 0 0 0) c.
Proof. intros size cap H1 H2 H3. apply rep_create. repeat split; lia. Qed.
Print Assumptions C10_created_files_are_good.

Example C10_example :
  let r := Rec 1 2 10 20 3 [7;8;9] in
  match createFile 80 3 with
  | (c, Ok g) => match f_set_record g 1 r c with
                 | Ok c' => f_record g 1 c' = Ok r /\ f_has_record g 0 c' = false /\
                            f_has_record g 2 c' = false /\ f_metadata g c' = Ok (Meta 80 2 0 0 0)
                 | _ => False end
  | _ => False end.
Proof. vm_compute. repeat split. Qed.

(** * C11 *)
Theorem C11_write_position_found : forall g slots m c first,
  rep g slots m c ->
  0 <= first <= g_cap g ->
  (forall n, 0 <= n < g_cap g -> f_has_record g n c = true <-> first <= n) ->
  0 <= m_head m < g_cap g ->
  getHeadPointer g c = Ok (first - 1).
Proof.
  intros g slots m c first HR Hf Hocc Hh.
  pose proof HR as (Hg & Hb & Hl & Hsl & Hm & HM & H).
  apply (getHeadPointer_spec g slots m c first HR); try lia.
  split; [lia|]. intros n Hn. rewrite Hsl in Hn. specialize (Hocc n Hn).
  rewrite (rep_has _ _ _ _ n HR) in Hocc.
  destruct (Z.leb_spec 0 n), (Z.ltb_spec n (g_cap g)); try lia. exact Hocc.
Qed.
Print Assumptions C11_write_position_found.

(** a hint of -1 (file full) is believed without looking *)
Theorem C11_hint_full : forall g c m,
  f_metadata g c = Ok m -> m_head m < 0 -> getHeadPointer g c = Ok (m_head m).
Proof.
  intros g c m E H. unfold getHeadPointer. rewrite E. cbn [bind].
  destruct (Z.ltb_spec (m_head m) 0); [reflexivity|lia].
Qed.
Print Assumptions C11_hint_full.

Definition C11_example_at (hint : Z) : res Z :=
  let r := Rec 1 2 10 20 3 [7;8;9] in
  match createFile 80 3 with
  | (c, Ok g) =>
      do c <- f_set_record g 2 r c;
      do c <- f_set_record g 1 r c;
      do c <- f_set_metadata g (Meta 80 hint 0 0 0) c;
      getHeadPointer g c
  | _ => Err end.
(* slots 2 and 1 occupied, hints 0, 1 and 2 *)
Example C11_example : map C11_example_at [0;1;2] = [Ok 0; Ok 0; Ok 0].
Proof. vm_compute. reflexivity. Qed.
