From Coq Require Import ZArith List Lia Bool.
From Verif Require Import Base Crc CrcProofs Record RecordSpec RecordProofs Pb Meta PbRecord PbProofs File.
Import ListNotations.
Open Scope Z_scope.

(** parse only looks at a prefix *)
Lemma sub_app_prefix off n a b : 0 <= off -> 0 <= n -> off + n <= len a ->
  sub off n (a ++ b) = sub off n a.
Proof.
  intros. unfold sub, len in *. rewrite skipn_app, firstn_app.
  rewrite skipn_length. replace (Z.to_nat n - (length a - Z.to_nat off))%nat with 0%nat by lia.
  cbn. now rewrite app_nil_r.
Qed.

Lemma at_app_prefix i a b : 0 <= i < len a -> at_ i (a ++ b) = at_ i a.
Proof. intros. unfold at_, len in *. apply app_nth1. lia. Qed.

Lemma parse_ok_len b r : parse b = Ok r -> 24 <= len b.
Proof. unfold parse. destruct (Z.ltb_spec (len b) recordHeaderSize); [discriminate|]. intros; assumption. Qed.

Lemma parse_app b rest r : is_bytes b -> parse b = Ok r -> parse (b ++ rest) = Ok r.
Proof.
  intros Hb H. pose proof (parse_ok_len b r H) as L.
  pose proof (len_nonneg rest) as Hr.
  assert (0 <= unbe (sub 18 2 b)) as Hs0 by (apply unbe_range, is_bytes_sub; auto).
  unfold parse in *. unfold recordHeaderSize in *.
  replace (len b <? 24) with false in H by (symmetry; apply Z.ltb_ge; lia).
  replace (len (b ++ rest) <? 24) with false by (symmetry; apply Z.ltb_ge; rewrite len_app; lia).
  rewrite !at_app_prefix by lia. rewrite ?(sub_app_prefix 2 8 b rest), ?(sub_app_prefix 10 8 b rest), ?(sub_app_prefix 18 2 b rest), ?(sub_app_prefix 0 20 b rest), ?(sub_app_prefix 20 4 b rest) by lia.
  destruct (negb _); [discriminate|].
  destruct (Z.ltb_spec (len b) (24 + unbe (sub 18 2 b))); [discriminate|].
  replace (len (b ++ rest) <? 24 + unbe (sub 18 2 b)) with false
    by (symmetry; apply Z.ltb_ge; rewrite len_app; lia).
  rewrite (sub_app_prefix 24) by lia. exact H.
Qed.

Lemma parse_version b r : is_bytes b -> parse b = Ok r -> at_ 0 b = 1.
Proof.
  intros Hb H. pose proof (parse_ok_len b r H) as L. unfold parse in H.
  unfold recordHeaderSize, recordVersion in *.
  destruct (Z.ltb_spec (len b) 24); [lia|].
  destruct (Z.eqb_spec (i8 (at_ 0 b)) 1) as [e|]; [|discriminate].
  assert (is_byte (at_ 0 b)) as Hx.
  { unfold at_. change (Z.to_nat 0) with 0%nat. unfold is_bytes in Hb. rewrite Forall_forall in Hb.
    apply Hb, nth_In. unfold len in L. lia. }
  unfold is_byte in Hx. unfold i8 in e. destruct (Z_lt_ge_dec (at_ 0 b) 128).
  - rewrite Z.mod_small in e; lia.
  - replace (at_ 0 b + 2^7) with (at_ 0 b - 128 + 1 * 2^8) in e by lia.
    rewrite Z.mod_add in e by lia. rewrite Z.mod_small in e; lia.
Qed.

Lemma parse_empty b : at_ 0 b = 0 -> parse b = Err.
Proof.
  intros H. unfold parse. rewrite H. destruct (_ <? _); reflexivity.
Qed.

Lemma is_bytes_put off new l : is_bytes new -> is_bytes l -> is_bytes (put off new l).
Proof.
  intros. unfold put, is_bytes. rewrite !Forall_app. repeat split.
  - now apply is_bytes_firstn.
  - assumption.
  - now apply is_bytes_skipn.
Qed.

Lemma is_bytes_repeat n : is_bytes (repeat 0 n).
Proof. induction n; constructor; auto. unfold is_byte; lia. Qed.

Lemma sub_len off n l : 0 <= off -> 0 <= n -> off + n <= len l -> len (sub off n l) = n.
Proof. intros. unfold len. rewrite sub_length by auto. lia. Qed.

Lemma marshal_bytes r : is_bytes (r_data r) -> is_bytes (marshal r).
Proof.
  intros. unfold marshal, marshal_header, is_bytes. rewrite !Forall_app.
  repeat split; [apply header20_bytes|apply be_bytes|now apply is_bytes_firstn].
Qed.

Lemma marshal_len r : record_ok r -> len (marshal r) = rec_Size r.
Proof.
  intros (_ & _ & _ & _ & Hs & _). unfold marshal. rewrite len_app. unfold rec_Size.
  unfold len at 1. rewrite marshal_header_length.
  rewrite Hs. unfold len. rewrite Nat2Z.id, firstn_all. reflexivity.
Qed.

Lemma put0_app new l : (length new <= length l)%nat ->
  put 0 new l = new ++ skipn (length new) l.
Proof. intros. unfold put. reflexivity. Qed.

(** metadata that fits its fields *)
Definition meta_ok (m : metadata) : Prop :=
  is_i64 (m_size m) /\ is_i64 (m_head m) /\ is_i64 (m_start m) /\
  is_i64 (m_end m) /\ is_i64 (m_smallest m).

Lemma meta_roundtrip m : meta_ok m -> meta_unmarshal (meta_marshal m) = Ok m.
Proof. intros (? & ? & ? & ? & ?). now apply meta_roundtrip_. Qed.

(** writing metadata into a buffer of at least 79 bytes *)
Lemma writeMetadata_spec0 buf m : meta_ok m -> is_bytes buf -> 24 + meta_size m <= len buf ->
  exists buf', writeMetadata buf m = Ok buf' /\ len buf' = len buf /\ is_bytes buf' /\
    readMetadata buf' = Ok m /\
    (exists r, parse buf' = Ok r /\ rec_Size r <= len buf).
Proof.
  intros Hm Hb Hl. unfold writeMetadata.
  pose proof (meta_size_bound m) as Hs. pose proof (meta_size_len m) as Hsl.
  rewrite u16_id by lia. rewrite Z.eqb_refl. cbn [negb].
  unfold recordHeaderSize. destruct (Z.ltb_spec (len buf) (24 + meta_size m)); [lia|].
  set (P := meta_marshal m) in *.
  set (b1 := put 24 P buf).
  set (rec := Rec recordVersion kind_complete 0 0 (meta_size m) (skipn (Z.to_nat 24) b1)).
  set (rec' := Rec recordVersion kind_complete 0 0 (meta_size m) P).
  assert (Hb1l : len b1 = len buf) by (unfold b1; rewrite put_len; lia).
  assert (Hb1 : is_bytes b1) by (apply is_bytes_put; [apply meta_marshal_bytes|auto]).
  assert (Hsk : firstn (Z.to_nat (meta_size m)) (skipn (Z.to_nat 24) b1) = P).
  { fold (sub 24 (meta_size m) b1). unfold b1. rewrite sub_put_same by lia.
    rewrite Hsl. rewrite skipn_all2, app_nil_r; [reflexivity|].
    rewrite sub_length by lia. unfold len. lia. }
  assert (Hhdr : marshal_header rec = marshal_header rec').
  { unfold marshal_header, rec_crc, header20. cbn [r_version r_kind r_start r_end r_size r_data rec rec'].
    rewrite Hsk. rewrite Hsl. unfold len. rewrite Nat2Z.id, firstn_all. reflexivity. }
  assert (Hrec : record_ok rec').
  { unfold rec'. rewrite Hsl. apply record_ok_mk.
    - unfold P. reflexivity.
    - unfold kind_complete; lia.
    - unfold is_i64; lia.
    - unfold is_i64; lia.
    - lia.
    - apply meta_marshal_bytes. }
  set (hdr := marshal_header rec).
  assert (Hhl : len hdr = 24) by (unfold hdr, len; rewrite marshal_header_length; reflexivity).
  exists (put 0 hdr b1). split; [reflexivity|].
  split; [rewrite put_len; lia|].
  assert (Hhb : is_bytes hdr).
  { unfold hdr, marshal_header, is_bytes. rewrite Forall_app. split; [apply header20_bytes|apply be_bytes]. }
  split; [now apply is_bytes_put|].
  assert (E : exists rest, put 0 hdr b1 = marshal rec' ++ rest).
  { exists (skipn (length P) (skipn 24 b1)).
    rewrite put0_app by (unfold len in *; lia).
    unfold marshal. rewrite <- Hhdr. fold hdr. rewrite <- app_assoc. f_equal.
    replace (length hdr) with 24%nat by (unfold len in *; lia).
    cbn [r_size r_data rec'].
    replace (firstn (Z.to_nat (meta_size m)) P) with P
      by (rewrite Hsl; unfold len; rewrite Nat2Z.id, firstn_all; reflexivity).
    change (Z.to_nat 24) with 24%nat in Hsk.
    rewrite <- (firstn_skipn (length P) (skipn 24 b1)) at 1. f_equal.
    rewrite Hsl in Hsk. unfold len in Hsk. rewrite Nat2Z.id in Hsk. exact Hsk. }
  destruct E as [rest E]. rewrite E. unfold readMetadata.
  rewrite parse_marshal by auto. cbn [bind r_data rec'].
  split; [apply meta_roundtrip; auto|].
  exists rec'. split; [reflexivity|]. unfold rec_Size, recordHeaderSize. cbn [r_size rec']. lia.
Qed.

Lemma writeMetadata_spec buf m : meta_ok m -> is_bytes buf -> 79 <= len buf ->
  exists buf', writeMetadata buf m = Ok buf' /\ len buf' = len buf /\ is_bytes buf' /\
    readMetadata buf' = Ok m /\
    (exists r, parse buf' = Ok r /\ rec_Size r <= len buf).
Proof.
  intros. apply writeMetadata_spec0; auto. pose proof (meta_size_bound m). lia.
Qed.

Lemma readMetadata_app b rest m : is_bytes b -> readMetadata b = Ok m -> readMetadata (b ++ rest) = Ok m.
Proof.
  intros Hb H. unfold readMetadata in *. destruct (parse b) eqn:E; cbn [bind] in H; try discriminate.
  rewrite (parse_app _ _ _ Hb E). exact H.
Qed.

Lemma f_metadata_in g c : g_size g <= len c -> f_metadata g c = readMetadata (sub 0 (g_size g) c).
Proof. intros H. unfold f_metadata. now rewrite (proj2 (Z.ltb_ge _ _) H). Qed.
Lemma f_set_metadata_in g m c : g_size g <= len c ->
  f_set_metadata g m c = do b <- writeMetadata (sub 0 (g_size g) c) m; Ok (put 0 b c).
Proof. intros H. unfold f_set_metadata. now rewrite (proj2 (Z.ltb_ge _ _) H). Qed.

(** * Representation of a file's contents by its slots *)
Definition slot_rep (size : Z) (b : list Z) (s : option record) : Prop :=
  match s with
  | None => at_ 0 b = 0
  | Some r => record_ok r /\ rec_Size r <= size /\ parse b = Ok r
  end.

Definition geom_ok (g : geom) : Prop := 79 <= g_size g /\ 1 <= g_cap g.

Definition rep (g : geom) (slots : list (option record)) (m : metadata) (c : list Z) : Prop :=
  geom_ok g /\ is_bytes c /\ len c = g_size g * (g_cap g + 1) /\
  len slots = g_cap g /\ meta_ok m /\
  f_metadata g c = Ok m /\ 
  forall n, 0 <= n < g_cap g ->
    slot_rep (g_size g) (sub (offset g n) (g_size g) c) (nth (Z.to_nat n) slots None).

Lemma offset_bounds g n len_ : geom_ok g -> len_ = g_size g * (g_cap g + 1) ->
  0 <= n < g_cap g -> g_size g <= offset g n /\ offset g n + g_size g <= len_.
Proof. unfold geom_ok, offset. intros [? ?] -> ?. nia. Qed.

Lemma at_sub off n l : 0 <= off -> 0 < n -> at_ 0 (sub off n l) = at_ off l.
Proof.
  intros. unfold at_. change (Z.to_nat 0) with 0%nat. rewrite nth_sub by lia. f_equal. lia.
Qed.

Lemma rep_has g slots m c n : rep g slots m c -> 
  f_has_record g n c = match (if (0 <=? n) && (n <? g_cap g) then nth (Z.to_nat n) slots None else None) with
                       | Some _ => true | None => false end.
Proof.
  intros (Hg & Hb & Hl & Hs & Hm & HM & H).
  unfold f_has_record.
  destruct (Z.leb_spec (g_cap g) n), (Z.ltb_spec n 0), (Z.leb_spec 0 n), (Z.ltb_spec n (g_cap g));
    try lia; cbn [orb andb]; auto.
  specialize (H n ltac:(lia)). pose proof (offset_bounds g n _ Hg Hl ltac:(lia)).
  destruct Hg as [Hg1 Hg2].
  rewrite <- (at_sub (offset g n) (g_size g)) by lia.
  destruct (nth (Z.to_nat n) slots None) as [r|]; cbn [slot_rep] in H.
  - destruct H as (_ & _ & Hp). rewrite (parse_version _ _ (is_bytes_sub _ _ _ Hb) Hp). reflexivity.
  - rewrite H. reflexivity.
Qed.

Lemma rep_get g slots m c n r : rep g slots m c -> 0 <= n < g_cap g ->
  nth (Z.to_nat n) slots None = Some r -> f_record g n c = Ok r.
Proof.
  intros (Hg & Hb & Hl & Hs & Hm & HM & H) Hn E. unfold f_record.
  destruct (Z.leb_spec (g_cap g) n), (Z.ltb_spec n 0); try lia. cbn [orb].
  specialize (H n Hn). rewrite E in H. apply H.
Qed.

Lemma rep_get_none g slots m c n : rep g slots m c -> 0 <= n < g_cap g ->
  nth (Z.to_nat n) slots None = None -> f_record g n c = Err.
Proof.
  intros (Hg & Hb & Hl & Hs & Hm & HM & H) Hn E. unfold f_record.
  destruct (Z.leb_spec (g_cap g) n), (Z.ltb_spec n 0); try lia. cbn [orb].
  specialize (H n Hn). rewrite E in H. cbn in H. now apply parse_empty.
Qed.

Lemma rep_meta g slots m c : rep g slots m c -> f_metadata g c = Ok m.
Proof. intros (_ & _ & _ & _ & _ & H & _). exact H. Qed.

Fixpoint upd {A} (n : nat) (x : A) (l : list A) : list A :=
  match l, n with
  | [], _ => []
  | _ :: t, O => x :: t
  | h :: t, S k => h :: upd k x t
  end.

Lemma upd_length {A} n (x : A) l : length (upd n x l) = length l.
Proof. revert n; induction l; destruct n; cbn; auto. Qed.

Lemma nth_upd {A} n (x : A) l i d : (n < length l)%nat ->
  nth i (upd n x l) d = if Nat.eqb n i then x else nth i l d.
Proof.
  revert n i; induction l as [|h t IH]; intros n i Hn; cbn in Hn; [lia|].
  destruct n, i; cbn; auto. rewrite IH by lia. reflexivity.
Qed.

Lemma offset_disjoint g n k : geom_ok g -> n <> k ->
  offset g n + g_size g <= offset g k \/ offset g k + g_size g <= offset g n.
Proof. unfold geom_ok, offset. intros [? ?] ?. assert (n < k \/ k < n) as [|] by lia; [left|right]; nia. Qed.

(** storing a record *)
Lemma rep_set g slots m c n r : rep g slots m c -> 0 <= n < g_cap g ->
  record_ok r -> rec_Size r <= g_size g ->
  exists c', f_set_record g n r c = Ok c' /\ rep g (upd (Z.to_nat n) (Some r) slots) m c'.
Proof.
  intros (Hg & Hb & Hl & Hs & Hm & HM & H) Hn Hr Hsz.
  pose proof (offset_bounds g n _ Hg Hl Hn) as [Ho1 Ho2]. pose proof Hg as [Hg1 Hg2].
  pose proof (marshal_len r Hr) as ML.
  assert (Hrb : is_bytes (r_data r)) by apply Hr.
  unfold f_set_record.
  destruct (Z.leb_spec (g_cap g) n), (Z.ltb_spec n 0); try lia. cbn [orb].
  unfold writeRecord. rewrite sub_len by lia.
  destruct (Z.ltb_spec (g_size g) (rec_Size r)); [lia|]. cbn [bind].
  set (b := put 0 (marshal r) (sub (offset g n) (g_size g) c)).
  assert (Lb : len b = g_size g) by (unfold b; rewrite put_len; rewrite ?sub_len; lia).
  assert (Bb : is_bytes b) by (apply is_bytes_put; [now apply marshal_bytes|now apply is_bytes_sub]).
  exists (put (offset g n) b c). split; [reflexivity|].
  split; [assumption|]. split; [now apply is_bytes_put|].
  split; [rewrite put_len; lia|].
  split; [unfold len; rewrite upd_length; exact Hs|].
  split; [assumption|].
  split.
  { rewrite f_metadata_in in * by (rewrite ?put_len; lia). rewrite sub_put_other by lia. exact HM. }
  intros k Hk. rewrite nth_upd by (unfold len in *; lia).
  destruct (Nat.eqb_spec (Z.to_nat n) (Z.to_nat k)) as [e|ne].
  - assert (k = n) as -> by lia. cbn [slot_rep]. split; [assumption|]. split; [assumption|].
    rewrite sub_put_same by lia.
    rewrite (skipn_all2 (sub _ _ _)) by (rewrite sub_length; unfold len in *; lia).
    rewrite app_nil_r. unfold b. rewrite put0_app.
    + now apply parse_marshal.
    + rewrite sub_length by lia. unfold len in *. lia.
  - pose proof (offset_bounds g k _ Hg Hl Hk) as [Hk1 Hk2].
    rewrite sub_put_other; try lia; [now apply H|].
    rewrite Lb. destruct (offset_disjoint g k n Hg ltac:(lia)); lia.
Qed.

(** storing metadata *)
Lemma rep_set_meta g slots m c m' : rep g slots m c -> meta_ok m' ->
  exists c', f_set_metadata g m' c = Ok c' /\ rep g slots m' c'.
Proof.
  intros (Hg & Hb & Hl & Hs & Hm & HM & H) Hm'. pose proof Hg as [Hg1 Hg2].
  assert (Hsc : g_size g <= len c) by nia. rewrite f_set_metadata_in by exact Hsc.
  assert (Hsl : len (sub 0 (g_size g) c) = g_size g) by (apply sub_len; nia).
  destruct (writeMetadata_spec (sub 0 (g_size g) c) m' Hm' (is_bytes_sub _ _ _ Hb) ltac:(lia))
    as (b & E & Lb & Bb & Rb & _).
  rewrite E. cbn [bind]. exists (put 0 b c). split; [reflexivity|].
  split; [assumption|]. split; [now apply is_bytes_put|].
  split; [rewrite put_len; nia|]. split; [assumption|]. split; [assumption|].
  split.
  { rewrite f_metadata_in by (rewrite put_len; lia). rewrite sub_put_same by nia.
    rewrite skipn_all2; [rewrite app_nil_r; exact Rb|].
    rewrite sub_length by nia. unfold len in *. lia. }
  intros n Hn. pose proof (offset_bounds g n _ Hg Hl Hn).
  rewrite sub_put_other; try nia. now apply H.
Qed.

(** opening a represented file *)
Lemma rep_open g slots m c : rep g slots m c -> m_size m = g_size g -> openFile c = Ok g.
Proof.
  intros (Hg & Hb & Hl & Hs & Hm & HM & H) E. pose proof Hg as [Hg1 Hg2].
  unfold openFile, recordHeaderSize. destruct (Z.ltb_spec (len c) 24); [nia|].
  assert (readMetadata c = Ok m) as ->.
  { rewrite f_metadata_in in HM by nia.
    replace c with (sub 0 (g_size g) c ++ skipn (Z.to_nat (g_size g)) c).
    - apply readMetadata_app; auto. now apply is_bytes_sub.
    - unfold sub. cbn [Z.to_nat skipn]. apply firstn_skipn. }
  cbn [bind]. rewrite E. destruct (Z.ltb_spec (g_size g) 24); [lia|].
  rewrite Hl. rewrite Z.mul_comm, Z.div_mul by lia.
  destruct g; cbn in *. f_equal. f_equal. lia.
Qed.

(** a fresh file *)
Lemma sub_repeat off n k : 0 <= off -> 0 <= n -> off + n <= Z.of_nat k ->
  sub off n (repeat 0 k) = repeat 0 (Z.to_nat n).
Proof.
  intros. apply list_ext.
  - rewrite sub_length, repeat_length; auto. unfold len. rewrite repeat_length. auto.
  - intros i Hi. rewrite sub_length in Hi by (unfold len; rewrite ?repeat_length; lia).
    rewrite nth_sub by lia. rewrite !nth_repeat. reflexivity.
Qed.

Definition opts_ok (size cap : Z) : Prop :=
  79 <= size < 65560 /\ 1 <= cap /\ size * cap < 2 ^ 31.

Lemma i32_id x : - 2^31 <= x < 2^31 -> i32 x = x.
Proof. intros. unfold i32. rewrite Z.mod_small; lia. Qed.

Lemma rep_create size cap : opts_ok size cap ->
  exists c, createFile size cap = (c, Ok (Geom cap size)) /\
    rep (Geom cap size) (repeat None (Z.to_nat cap)) (Meta size (cap - 1) 0 0 0) c.
Proof.
  intros (Hs & Hc & Hp). unfold createFile.
  assert (cap < 2^31) by nia.
  rewrite i64_id by (unfold is_i64; lia). rewrite !(i32_id cap), !(i32_id size) by lia.
  rewrite !Z.eqb_refl. replace (cap + 1 <? cap) with false by (symmetry; apply Z.ltb_ge; lia).
  cbn [orb negb]. destruct (Z.eqb_spec cap 0); [lia|].
  rewrite (i32_id (size * cap)) by nia. rewrite Z.quot_mul by lia.
  rewrite i32_id, Z.eqb_refl by lia. cbn [negb].
  destruct (Z.leb_spec (size * (cap + 1)) 0); [nia|].
  destruct (Z.ltb_spec size 0); [lia|].
  set (z := repeat 0 (Z.to_nat (size * (cap + 1)))).
  assert (Lz : len z = size * (cap + 1)) by (unfold z, len; rewrite repeat_length; lia).
  assert (Bz : is_bytes z) by apply is_bytes_repeat.
  set (m0 := Meta size (cap - 1) 0 0 0).
  assert (Hm0 : meta_ok m0) by (unfold meta_ok, m0, is_i64; cbn [m_size m_head m_start m_end m_smallest]; lia).
  assert (Lsz : len (sub 0 size z) = size) by (apply sub_len; nia).
  destruct (writeMetadata_spec (sub 0 size z) m0 Hm0 (is_bytes_sub _ _ _ Bz) ltac:(lia))
    as (b & E & Lb & Bb & Rb & _).
  rewrite E. exists (put 0 b z). split; [reflexivity|].
  assert (Hg : geom_ok (Geom cap size)) by (split; cbn; lia).
  split; [exact Hg|]. split; [now apply is_bytes_put|]. cbn [g_size g_cap].
  split; [rewrite put_len; nia|].
  split; [unfold len; rewrite repeat_length; lia|].
  split; [assumption|].
  split.
  { rewrite f_metadata_in by (cbn [g_size]; rewrite put_len; nia). cbn [g_size]. rewrite sub_put_same by nia.
    rewrite skipn_all2; [rewrite app_nil_r; exact Rb|].
    rewrite sub_length by nia. unfold len in *. lia. }
  intros k Hn. rewrite nth_repeat. cbn [slot_rep].
  pose proof (offset_bounds (Geom cap size) k _ Hg Lz Hn) as [Ho1 Ho2]. cbn [g_size] in *.
  rewrite sub_put_other; try nia.
  unfold z. rewrite sub_repeat by nia.
  unfold at_. rewrite nth_repeat. reflexivity.
Qed.

(** * the head pointer *)
(** the occupied slots are exactly those at [first], [first+1], ... *)
Definition occupied_from (slots : list (option record)) (first : Z) : Prop :=
  0 <= first <= len slots /\
  forall n, 0 <= n < len slots ->
    (match nth (Z.to_nat n) slots None with Some _ => true | None => false end = true <-> first <= n).

Lemma head_walk_spec g slots m c first : rep g slots m c -> occupied_from slots first ->
  forall fuel delta head orig,
  0 <= head < g_cap g ->
  orig = f_has_record g head c ->
  delta = (if orig then -1 else 1) ->
  (Z.to_nat (if orig then head + 1 else g_cap g - head) <= fuel)%nat ->
  head_walk fuel g c orig delta head = Ok (first - 1).
Proof.
  intros Hrep [Hf Hocc]. pose proof Hrep as (Hg & _ & _ & Hs & _ & _ & _). rewrite Hs in *.
  assert (Hhas : forall n, 0 <= n < g_cap g -> f_has_record g n c = (first <=? n)).
  { intros n Hn. rewrite (rep_has _ _ _ _ n Hrep).
    destruct (Z.leb_spec 0 n), (Z.ltb_spec n (g_cap g)); try lia. cbn [andb].
    specialize (Hocc n Hn). destruct (nth (Z.to_nat n) slots None), (Z.leb_spec first n); auto.
    - destruct Hocc as [Hx _]. specialize (Hx eq_refl). lia.
    - destruct Hocc as [_ Hx]. specialize (Hx ltac:(lia)). discriminate. }
  induction fuel as [|fuel IH]; intros delta head orig Hh Ho Hd Hfu.
  - destruct orig; lia.
  - cbn [head_walk]. rewrite Hhas in Ho by lia.
    destruct orig; subst delta.
    + symmetry in Ho. apply Z.leb_le in Ho.
      destruct (Z.eqb_spec (head + -1) (g_cap g)); [lia|].
      destruct (Z.ltb_spec (head + -1) 0).
      * f_equal. lia.
      * destruct (f_has_record g (head + -1) c) eqn:Eh; cbn [Bool.eqb].
        -- apply IH; auto; try lia.
        -- rewrite Hhas in Eh by lia. apply Z.leb_gt in Eh. f_equal. lia.
    + symmetry in Ho. apply Z.leb_gt in Ho.
      destruct (Z.eqb_spec (head + 1) (g_cap g)).
      * f_equal. lia.
      * destruct (Z.ltb_spec (head + 1) 0); [lia|].
        destruct (f_has_record g (head + 1) c) eqn:Eh; cbn [Bool.eqb].
        -- rewrite Hhas in Eh by lia. apply Z.leb_le in Eh. f_equal. lia.
        -- apply IH; auto; try lia.
Qed.

Lemma getHeadPointer_spec g slots m c first : rep g slots m c -> occupied_from slots first ->
  -1 <= m_head m < g_cap g -> (m_head m = -1 -> first = 0) ->
  getHeadPointer g c = Ok (first - 1).
Proof.
  intros Hrep Hocc Hh Hneg. unfold getHeadPointer. rewrite (rep_meta _ _ _ _ Hrep). cbn [bind].
  destruct (Z.ltb_spec (m_head m) 0).
  - f_equal. rewrite Hneg; lia.
  - eapply head_walk_spec; eauto; [lia|]. destruct (f_has_record _ _ _); lia.
Qed.

(** what a successful createFile guarantees, for any int arguments *)
Lemma create_ok size cap c g : is_i64 size -> is_i64 cap ->
  createFile size cap = (c, Ok g) ->
  g = Geom cap size /\ 24 <= size /\ 1 <= cap /\ len c = size * (cap + 1) /\
  is_bytes c /\ openFile c = Ok g /\
  f_metadata g c = Ok (Meta size (cap - 1) 0 0 0) /\
  forall n, f_has_record g n c = false.
Proof.
  intros Hs Hc. unfold is_i64 in *. unfold createFile.
  destruct ((i64 (cap + 1) <? cap) || negb (i32 cap =? cap) || negb (i32 size =? size)) eqn:E0; [discriminate|].
  apply orb_false_iff in E0. destruct E0 as [E0 E2]. apply orb_false_iff in E0. destruct E0 as [E0 E1].
  apply negb_false_iff in E1, E2. apply Z.eqb_eq in E1, E2.
  assert (R : forall x, - 2^31 <= i32 x < 2^31).
  { intros x. unfold i32. pose proof (Z.mod_pos_bound (x + 2^31) (2^32) ltac:(lia)). lia. }
  pose proof (R cap) as Rc. pose proof (R size) as Rs. rewrite E1 in Rc. rewrite E2 in Rs.
  destruct (Z.eqb_spec cap 0) as [|Hc0]; [discriminate|].
  destruct (negb _); [discriminate|].
  destruct (Z.leb_spec (size * (cap + 1)) 0); [discriminate|].
  destruct (Z.ltb_spec size 0); [discriminate|].
  assert (0 < size /\ 0 < cap) as [Hsp Hcp] by nia.
  set (n := size * (cap + 1)) in *.
  set (z := repeat 0 (Z.to_nat n)).
  assert (Lz : len z = n) by (unfold z, len; rewrite repeat_length; lia).
  assert (Bz : is_bytes z) by apply is_bytes_repeat.
  set (m0 := Meta size (cap - 1) 0 0 0).
  assert (Hm0 : meta_ok m0) by (unfold meta_ok, m0, is_i64; cbn [m_size m_head m_start m_end m_smallest]; lia).
  assert (size <= n) by (unfold n; nia).
  assert (Lsz : len (sub 0 size z) = size) by (apply sub_len; lia).
  assert (Hfit : forall b, writeMetadata (sub 0 size z) m0 = Ok b -> 24 + meta_size m0 <= size).
  { intros b. unfold writeMetadata. destruct (negb _); [discriminate|]. rewrite Lsz.
    unfold recordHeaderSize. destruct (Z.ltb_spec size (24 + meta_size m0)); [discriminate|lia]. }
  destruct (writeMetadata (sub 0 size z) m0) as [b| | |] eqn:E; try discriminate.
  specialize (Hfit b eq_refl). rewrite <- Lsz in Hfit.
  destruct (writeMetadata_spec0 (sub 0 size z) m0 Hm0 (is_bytes_sub _ _ _ Bz) Hfit)
    as (b' & E' & Lb & Bb & Rb & _).
  rewrite E in E'. injection E' as <-. rewrite Lsz in *.
  pose proof (meta_size_len m0). pose proof (len_nonneg (meta_marshal m0)).
  intros [= <- <-].
  assert (Lc : len (put 0 b z) = n) by (rewrite put_len; lia).
  assert (Bc : is_bytes (put 0 b z)) by now apply is_bytes_put.
  assert (Ec : put 0 b z = b ++ skipn (length b) z) by reflexivity.
  assert (Ef : sub 0 size (put 0 b z) = b).
  { unfold sub. rewrite Ec. change (Z.to_nat 0) with 0%nat. cbn [skipn].
    rewrite firstn_app. replace (Z.to_nat size - length b)%nat with 0%nat by (unfold len in *; lia).
    cbn [firstn]. rewrite app_nil_r. apply firstn_all2. unfold len in *; lia. }
  split; [reflexivity|]. split; [lia|]. split; [lia|]. split; [exact Lc|]. split; [exact Bc|].
  split; [|split].
  - unfold openFile. rewrite Lc. unfold recordHeaderSize. destruct (Z.ltb_spec n 24); [lia|].
    rewrite Ec. rewrite (readMetadata_app _ _ _ Bb Rb). cbn [bind m_size m0].
    destruct (Z.ltb_spec size 24); [lia|]. unfold n. rewrite Z.mul_comm, Z.div_mul by lia.
    do 2 f_equal. lia.
  - rewrite f_metadata_in by (cbn [g_size]; lia). cbn [g_size]. rewrite Ef. exact Rb.
  - intros k. unfold f_has_record. cbn [g_cap].
    destruct (Z.leb_spec cap k), (Z.ltb_spec k 0); try lia; cbn [orb]; auto.
    unfold offset. cbn [g_size]. rewrite Ec. unfold at_.
    rewrite app_nth2 by (unfold len in *; nia).
    rewrite <- (firstn_skipn (length b) z) at 1. 
    assert (Hz : forall i k, nth i (skipn k z) 0 = 0).
    { intros i j. assert (Forall (fun x => x = 0) (skipn j z)) as Hf.
      { unfold z. assert (Forall (fun x : Z => x = 0) (repeat 0 (Z.to_nat n))) as Hr
          by (apply Forall_forall; intros x Hx; eapply repeat_spec; eauto).
        rewrite <- (firstn_skipn j) in Hr. rewrite Forall_app in Hr. apply Hr. }
      destruct (Nat.lt_ge_cases i (length (skipn j z))).
      - rewrite Forall_forall in Hf. apply Hf, nth_In. assumption.
      - apply nth_overflow. assumption. }
    rewrite firstn_skipn, Hz. reflexivity.
Qed.
