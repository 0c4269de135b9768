From Coq Require Import ZArith List Lia Bool.
From Verif Require Import Base Crc CrcProofs Record RecordSpec.
Import ListNotations.
Open Scope Z_scope.

Lemma header20_length r : length (header20 r) = 20%nat.
Proof. unfold header20. rewrite !app_length, !be_length. reflexivity. Qed.

Lemma header20_bytes r : is_bytes (header20 r).
Proof.
  unfold header20. unfold is_bytes. rewrite !Forall_app.
  split; [|split; [apply be_bytes|split; apply be_bytes]].
  repeat constructor; apply Z.mod_pos_bound; lia.
Qed.

Lemma marshal_header_length r : length (marshal_header r) = 24%nat.
Proof. unfold marshal_header. rewrite app_length, header20_length, be_length; auto. Qed.

Lemma u64_unbe x : unbe (be 8 (u64 x)) = u64 x.
Proof. apply unbe_be. pose proof (u64_range x). unfold is_u64 in *. change (256 ^ Z.of_nat 8) with (2^64). lia. Qed.

Lemma sub_app_skip {n} (a b : list Z) off k :
  length a = n -> 0 <= off -> Z.of_nat n <= off ->
  sub off k (a ++ b) = sub (off - Z.of_nat n) k b.
Proof.
  intros Ha H1 H2. unfold sub. rewrite skipn_app, Ha.
  rewrite skipn_all2 by lia. cbn [app]. do 2 f_equal. lia.
Qed.

Lemma sub_app_here (a b : list Z) n : 
  Z.of_nat (length a) = n -> sub 0 n (a ++ b) = a.
Proof.
  intros H. unfold sub. cbn [Z.to_nat skipn]. rewrite firstn_app.
  replace (Z.to_nat n) with (length a) by lia.
  rewrite firstn_all, Nat.sub_diag. cbn. apply app_nil_r.
Qed.

(** decomposition of a buffer holding a marshalled record *)
Lemma marshal_parts r rest :
  record_ok r ->
  let buf := marshal r ++ rest in
  len buf = 24 + len (r_data r) + len rest /\
  at_ 0 buf = 1 /\ at_ 1 buf = r_kind r /\
  unbe (sub 2 8 buf) = u64 (r_start r) /\
  unbe (sub 10 8 buf) = u64 (r_end r) /\
  unbe (sub 18 2 buf) = len (r_data r) /\
  sub 24 (len (r_data r)) buf = r_data r /\
  sub 0 20 buf = header20 r /\
  unbe (sub 20 4 buf) = rec_crc r.
Proof.
  intros (Hv & Hk & Hs & He & Hsz & Hlt & Hb) buf.
  assert (firstn (Z.to_nat (r_size r)) (r_data r) = r_data r) as Hd.
  { rewrite Hsz. unfold len. rewrite Nat2Z.id. apply firstn_all. }
  assert (buf = header20 r ++ be 4 (rec_crc r) ++ r_data r ++ rest) as E.
  { unfold buf, marshal, marshal_header. rewrite Hd, <- !app_assoc. reflexivity. }
  pose proof (header20_length r) as H20.
  split.
  { rewrite E, !len_app. unfold len. rewrite H20, be_length. lia. }
  split.
  { rewrite E. unfold header20, at_. cbn [app nth Z.to_nat]. rewrite Hv. reflexivity. }
  split.
  { rewrite E. unfold header20, at_.
    change (Z.to_nat 1) with 1%nat. cbn [app nth]. apply Z.mod_small. lia. }
  assert (forall a b c : list Z, (a ++ b) ++ c = a ++ b ++ c) as AA by (intros; now rewrite app_assoc).
  assert (E2 : buf = [r_version r mod 256; r_kind r mod 256]
    ++ be 8 (u64 (r_start r)) ++ be 8 (u64 (r_end r)) ++ be 2 (r_size r)
    ++ be 4 (rec_crc r) ++ r_data r ++ rest).
  { rewrite E. unfold header20. rewrite !AA. reflexivity. }
  split.
  { rewrite E2. rewrite (sub_app_skip (n:=2)) by (auto; lia).
    rewrite sub_app_here by (rewrite be_length; auto). apply u64_unbe. }
  split.
  { rewrite E2. rewrite (sub_app_skip (n:=2)) by (auto; lia).
    rewrite (sub_app_skip (n:=8)) by (rewrite ?be_length; auto; lia).
    rewrite sub_app_here by (rewrite be_length; auto). apply u64_unbe. }
  split.
  { rewrite E2. rewrite (sub_app_skip (n:=2)) by (auto; lia).
    do 2 rewrite (sub_app_skip (n:=8)) by (rewrite ?be_length; auto; lia).
    rewrite sub_app_here by (rewrite be_length; auto). rewrite unbe_be; auto.
    rewrite Hsz. pose proof (len_nonneg (r_data r)). change (256 ^ Z.of_nat 2) with 65536. lia. }
  split.
  { rewrite E. rewrite (sub_app_skip (n:=20)) by (auto; lia).
    rewrite (sub_app_skip (n:=4)) by (rewrite ?be_length; auto; lia).
    apply sub_app_here. reflexivity. }
  split.
  { rewrite E. apply sub_app_here. rewrite H20. reflexivity. }
  rewrite E. rewrite (sub_app_skip (n:=20)) by (auto; lia).
  rewrite sub_app_here by (rewrite be_length; auto).
  apply unbe_be.
  assert (is_u32 (rec_crc r)) as Hc.
  { unfold rec_crc. apply crc_update_range, crc_update_range. unfold is_u32; lia. }
  unfold is_u32 in Hc. change (256 ^ Z.of_nat 4) with (2^32). lia.
Qed.

Lemma i8_small x : 0 <= x < 128 -> i8 x = x.
Proof. intros. unfold i8. rewrite Z.mod_small; lia. Qed.

Lemma parse_marshal r rest : record_ok r -> parse (marshal r ++ rest) = Ok r.
Proof.
  intros H. pose proof (marshal_parts r rest H) as
    (Hl & H0 & H1 & Hs & He & Hsz & Hd & Hh & Hc).
  destruct H as (Hv & Hk & Hst & Hen & Hsize & Hlt & Hb).
  pose proof (len_nonneg rest). pose proof (len_nonneg (r_data r)).
  unfold parse, recordHeaderSize, recordVersion.
  replace (len (marshal r ++ rest) <? 24) with false by (symmetry; apply Z.ltb_ge; lia).
  rewrite H0. cbn [negb]. change (i8 1 =? 1) with true. cbn [negb].
  rewrite Hsz.
  replace (len (marshal r ++ rest) <? 24 + len (r_data r)) with false
    by (symmetry; apply Z.ltb_ge; lia).
  rewrite Hd, Hh, Hc.
  assert (crc_update (crc_update 0 (header20 r)) (r_data r) = rec_crc r) as ->.
  { unfold rec_crc. rewrite Hsize. unfold len at 1. rewrite Nat2Z.id, firstn_all. auto. }
  rewrite Z.eqb_refl. cbn [negb].
  rewrite Hs, He, H1, !i64_u64, (i8_small (r_kind r)) by auto.
  change (i8 1) with 1. rewrite <- Hv at 1. rewrite <- Hsize.
  destruct r; reflexivity.
Qed.

(** [numRecords]/[iterateRecords] *)
Lemma u16_id x : 0 <= x < 65536 -> u16 x = x.
Proof. intros. unfold u16. apply Z.mod_small. lia. Qed.

Definition size_ok (size : Z) : Prop := 24 < size < 65536 + 24.

Lemma chunk_test size : size_ok size ->
  ((size - 24 <? 0) || negb (u16 (size - 24) =? size - 24)) = false.
Proof.
  unfold size_ok; intros H. rewrite u16_id by lia. rewrite Z.eqb_refl.
  destruct (Z.ltb_spec (size - 24) 0); [lia|reflexivity].
Qed.

Lemma record_ok_mk k s e sz d : sz = len d -> 0 <= k < 128 -> is_i64 s -> is_i64 e ->
  len d < 65536 -> is_bytes d -> record_ok (Rec recordVersion k s e sz d).
Proof. intros. unfold record_ok; cbn [r_version r_kind r_start r_end r_size r_data]. auto 10. Qed.

Lemma iterate_loop_spec start end_ chunk :
  0 < chunk < 65536 -> is_i64 start -> is_i64 end_ ->
  forall fuel data complete kind, 
  is_bytes data -> (length data <= fuel)%nat ->
  exists init last,
    iterate_loop fuel start end_ chunk kind complete data = Ok (init ++ [last]) /\
    Forall (fun r => record_ok r \/ kind < 0 \/ 128 <= kind) (init ++ [last]) /\
    Forall (fun r => r_version r = 1 /\ r_start r = start /\ r_end r = end_ /\
                     r_size r = len (r_data r) /\
                     len (r_data r) <= chunk /\ is_bytes (r_data r)) (init ++ [last]) /\
    concat (map r_data (init ++ [last])) = data /\
    map r_kind init = match init with [] => [] | _ :: t => kind :: repeat 4 (length t) end /\
    r_kind last = (if complete then 2 else 5) /\
    (len data = 0 -> init = []) /\
    (len data > 0 -> len init * chunk < len data <= (len init + 1) * chunk).
Proof.
  intros Hc Hs He. induction fuel as [|fuel IH]; intros data complete kind Hb Hf.
  - destruct data as [|x data]; [|cbn in Hf; lia].
    exists [], (Rec recordVersion (if complete then kind_complete else kind_end) start end_ 0 []).
    assert (record_ok (Rec recordVersion (if complete then kind_complete else kind_end) start end_ 0 [])).
    { apply record_ok_mk; auto; rewrite ?len_nil; try lia; destruct complete; cbv; intuition discriminate. }
    split. { cbn [iterate_loop]. change (len (@nil Z)) with 0.
      destruct (Z.leb_spec 0 chunk); [reflexivity|lia]. }
    cbn [app]. repeat split; auto;
      try (change (len (@nil record)) with 0 in *; change (len (@nil Z)) with 0 in *; lia).
    + constructor; [|constructor]. cbn [r_version r_start r_end r_size r_data].
      change (len (@nil Z)) with 0. split; [reflexivity|]. split; [reflexivity|].
      split; [reflexivity|]. split; [reflexivity|]. split; [lia|constructor].
  - cbn [iterate_loop]. destruct (Z.leb_spec (len data) chunk) as [Hle|Hgt].
    + exists [], (Rec recordVersion (if complete then kind_complete else kind_end) start end_ (u16 (len data)) data).
      pose proof (len_nonneg data).
      split; [reflexivity|]. cbn [app]. rewrite u16_id by lia.
      repeat split; auto; try (destruct complete; reflexivity);
        try (change (len (@nil record)) with 0 in *; lia).
      * constructor; [|constructor]. left.
        apply record_ok_mk; auto; try lia; destruct complete; cbv; intuition discriminate.
      * constructor; [|constructor]. cbn. repeat split; auto.
      * cbn. apply app_nil_r.
    + assert (is_bytes (skipn (Z.to_nat chunk) data)) as Hb'.
      { apply Forall_forall. intros x Hx. unfold is_bytes in Hb. rewrite Forall_forall in Hb.
        apply Hb. rewrite <- (firstn_skipn (Z.to_nat chunk) data). apply in_app_iff; auto. }
      assert (is_bytes (firstn (Z.to_nat chunk) data)) as Hb''.
      { apply Forall_forall. intros x Hx. unfold is_bytes in Hb. rewrite Forall_forall in Hb.
        apply Hb. rewrite <- (firstn_skipn (Z.to_nat chunk) data). apply in_app_iff; auto. }
      assert (len (skipn (Z.to_nat chunk) data) = len data - chunk) as Lsk.
      { unfold len in *. rewrite skipn_length. lia. }
      assert (len (firstn (Z.to_nat chunk) data) = chunk) as Lfi.
      { unfold len in *. rewrite firstn_length. lia. }
      destruct (IH (skipn (Z.to_nat chunk) data) complete kind_continue Hb')
        as (init & last & E & F1 & F2 & C & K & KL & Z0 & Zp).
      { rewrite skipn_length. unfold len in Hgt. lia. }
      exists (Rec recordVersion kind start end_ (u16 chunk) (firstn (Z.to_nat chunk) data) :: init), last.
      rewrite E. cbn [bind]. rewrite u16_id by lia.
      set (r0 := Rec _ _ _ _ _ _).
      split; [reflexivity|].
      split.
      { cbn [app]. constructor.
        - destruct (Z_lt_ge_dec kind 0); auto. destruct (Z_lt_ge_dec kind 128); [|right; right; lia].
          left. unfold r0. apply record_ok_mk; auto; lia.
        - eapply Forall_impl; [|exact F1]. cbn. intros a [Ha|Ha]; auto.
          exfalso. unfold kind_continue in Ha. lia. }
      split.
      { cbn [app]. constructor; [|exact F2]. cbn. repeat split; auto; lia. }
      split.
      { cbn [app map concat]. rewrite C. cbn. apply firstn_skipn. }
      split.
      { cbn [map]. cbn [length]. f_equal. rewrite K. destruct init; reflexivity. }
      split; [exact KL|].
      split; [lia|].
      intros _. rewrite len_cons. 
      specialize (Zp ltac:(lia)). rewrite Lsk in Zp. lia.
Qed.

Lemma iterate_spec start end_ data size :
  size_ok size -> is_i64 start -> is_i64 end_ -> is_bytes data ->
  exists recs nr,
    iterateRecords start end_ data size = Ok recs /\
    numRecords (len data) size = Ok nr /\
    len recs = nr /\ 1 <= nr /\
    concat (map r_data recs) = data /\
    kinds_ok (map r_kind recs) /\
    Forall (fun r => record_ok r /\ r_start r = start /\ r_end r = end_ /\
                     rec_Size r <= size) recs.
Proof.
  intros Hsz Hs He Hb. pose proof Hsz as Hsz'. unfold size_ok in Hsz'.
  unfold iterateRecords, numRecords, recordHeaderSize. rewrite chunk_test by auto.
  set (chunk := size - 24) in *.
  destruct (iterate_loop_spec start end_ chunk ltac:(unfold chunk; lia) Hs He
    (length data) data (len data <=? chunk) kind_begin Hb ltac:(lia))
    as (init & last & E & F1 & F2 & C & K & KL & Z0 & Zp).
  exists (init ++ [last]).
  pose proof (len_nonneg data) as Hl. pose proof (len_nonneg init) as Hi.
  exists (len init + 1).
  split; [exact E|].
  split.
  { destruct (Z.eqb_spec (len data) 0) as [e|ne].
    - rewrite Z0 by auto. reflexivity.
    - destruct (Z.eqb_spec chunk 0); [unfold chunk in *; lia|]. f_equal.
      specialize (Zp ltac:(lia)).
      symmetry. apply Z.div_unique with (len data + chunk - 1 - chunk * (len init + 1)); [|lia].
      left; nia. }
  split. { rewrite len_app. reflexivity. }
  split; [lia|].
  split; [exact C|].
  split.
  { rewrite map_app. cbn [map]. rewrite K, KL.
    destruct (Z.leb_spec (len data) chunk) as [Hle|Hgt].
    - assert (init = []) as ->.
      { destruct (Z.eq_dec (len data) 0); auto. specialize (Zp ltac:(lia)).
        apply len_0_nil. unfold chunk in *; nia. }
      cbn. constructor.
    - specialize (Zp ltac:(lia)). destruct init as [|i0 init].
      + change (len (@nil record)) with 0 in *. lia.
      + cbn. apply (kinds_multi (length init)). }
  apply Forall_forall. intros r Hr. rewrite Forall_forall in F1, F2.
  specialize (F1 r Hr). specialize (F2 r Hr).
  destruct F2 as (? & ? & ? & ? & ? & ?). unfold kind_begin in F1.
  destruct F1 as [F1|F1]; [|lia].
  repeat split; auto; try apply F1. unfold rec_Size, recordHeaderSize. unfold chunk in *. lia.
Qed.

(** single byte corruption *)
Lemma set_byte_length i b l : (i < length l)%nat -> length (set_byte i b l) = length l.
Proof.
  intros. unfold set_byte. rewrite app_length. cbn [length].
  rewrite firstn_length, skipn_length. lia.
Qed.

Lemma nth_set_byte i b l j : (i < length l)%nat ->
  nth j (set_byte i b l) 0 = if Nat.eqb i j then b else nth j l 0.
Proof.
  intros Hi. unfold set_byte.
  destruct (Nat.eqb_spec i j) as [->|Hne].
  - rewrite app_nth2; rewrite firstn_length; [|lia].
    replace (j - Nat.min j (length l))%nat with 0%nat by lia. reflexivity.
  - destruct (Nat.lt_ge_cases j i).
    + rewrite app_nth1 by (rewrite firstn_length; lia).
      rewrite <- (firstn_skipn i l) at 2.
      rewrite app_nth1 by (rewrite firstn_length; lia). auto.
    + rewrite app_nth2 by (rewrite firstn_length; lia).
      rewrite firstn_length.
      replace (j - Nat.min i (length l))%nat with (S (j - S i)) by lia.
      cbn [nth]. rewrite <- (firstn_skipn (S i) l) at 2.
      rewrite app_nth2 by (rewrite firstn_length; lia).
      rewrite firstn_length. f_equal. lia.
Qed.

Lemma sub_set_byte_out i b l off n :
  (i < length l)%nat -> 0 <= off -> 0 <= n -> off + n <= len l ->
  Z.of_nat i < off \/ off + n <= Z.of_nat i ->
  sub off n (set_byte i b l) = sub off n l.
Proof.
  intros Hi H1 H2 H3 H4.
  assert (len (set_byte i b l) = len l) as HL by (unfold len; now rewrite set_byte_length).
  apply list_ext.
  - rewrite !sub_length; auto; lia.
  - intros k Hk. rewrite sub_length in Hk by lia.
    rewrite !nth_sub by lia. rewrite nth_set_byte by auto.
    destruct (Nat.eqb_spec i (Z.to_nat off + k)); [lia|reflexivity].
Qed.

Lemma sub_set_byte_in i b l off n :
  (i < length l)%nat -> 0 <= off -> 0 <= n -> off + n <= len l ->
  off <= Z.of_nat i < off + n ->
  sub off n (set_byte i b l) = set_byte (i - Z.to_nat off) b (sub off n l).
Proof.
  intros Hi H1 H2 H3 H4.
  assert (len (set_byte i b l) = len l) as HL by (unfold len; now rewrite set_byte_length).
  assert (length (sub off n l) = Z.to_nat n) as HS by (apply sub_length; lia).
  apply list_ext.
  - rewrite set_byte_length; rewrite ?HS; [apply sub_length; lia|lia].
  - intros k Hk. rewrite sub_length in Hk by lia.
    rewrite nth_set_byte by (rewrite HS; lia). rewrite !nth_sub by lia.
    rewrite nth_set_byte by auto.
    destruct (Nat.eqb_spec i (Z.to_nat off + k)), (Nat.eqb_spec (i - Z.to_nat off) k);
      auto; lia.
Qed.

Lemma is_bytes_firstn n l : is_bytes l -> is_bytes (firstn n l).
Proof.
  intros H. apply Forall_forall. intros x Hx. unfold is_bytes in H. rewrite Forall_forall in H.
  apply H. rewrite <- (firstn_skipn n l). apply in_app_iff; auto.
Qed.
Lemma is_bytes_skipn n l : is_bytes l -> is_bytes (skipn n l).
Proof.
  intros H. apply Forall_forall. intros x Hx. unfold is_bytes in H. rewrite Forall_forall in H.
  apply H. rewrite <- (firstn_skipn n l). apply in_app_iff; auto.
Qed.
Lemma is_bytes_sub off n l : is_bytes l -> is_bytes (sub off n l).
Proof. intros. now apply is_bytes_firstn, is_bytes_skipn. Qed.

Lemma set_byte_same i b l : (i < length l)%nat -> nth i l 0 = b -> set_byte i b l = l.
Proof.
  intros Hi Hb. apply list_ext; [now apply set_byte_length|].
  intros j Hj. rewrite nth_set_byte by auto. destruct (Nat.eqb_spec i j); subst; auto.
Qed.

Lemma crc_set_byte c l i b : is_u32 c -> is_bytes l -> is_byte b -> (i < length l)%nat ->
  nth i l 0 <> b -> crc_update c (set_byte i b l) <> crc_update c l.
Proof.
  intros Hc Hl Hb Hi Hne H. rewrite <- (set_byte_same i (nth i l 0) l Hi eq_refl) in H at 2.
  unfold set_byte in H. apply crc_update_inj_byte in H; auto.
  - now apply is_bytes_firstn.
  - unfold is_bytes in Hl. rewrite Forall_forall in Hl. apply Hl. now apply nth_In.
  - now apply is_bytes_skipn.
Qed.

Lemma parse_corrupt r rest i b :
  record_ok r -> is_bytes rest -> is_byte b ->
  (i < 24 + length (r_data r))%nat -> ~ (18 <= i < 20)%nat ->
  nth i (marshal r ++ rest) 0 <> b ->
  parse (set_byte i b (marshal r ++ rest)) = Err.
Proof.
  intros Hr Hrest Hb Hi Hns Hne.
  pose proof (marshal_parts r rest Hr) as (Hl & H0 & H1 & Hs & He & Hsz & Hd & Hh & Hc).
  set (buf := marshal r ++ rest) in *.
  assert (Hbuf : is_bytes buf).
  { unfold buf, marshal, marshal_header. destruct Hr as (? & ? & ? & ? & ? & ? & ?).
    unfold is_bytes. rewrite !Forall_app.
    split; [|exact Hrest]. split; [split; [apply header20_bytes|apply be_bytes]|].
    now apply is_bytes_firstn. }
  pose proof (len_nonneg rest). pose proof (len_nonneg (r_data r)).
  assert (Hib : (i < length buf)%nat) by (unfold len in *; lia).
  assert (HL : len (set_byte i b buf) = len buf) by (unfold len; now rewrite set_byte_length).
  unfold parse, recordHeaderSize, recordVersion. rewrite HL.
  replace (len buf <? 24) with false by (symmetry; apply Z.ltb_ge; lia).
  unfold at_ in *. change (Z.to_nat 0) with 0%nat in *.
  rewrite (nth_set_byte i b buf 0) by auto.
  assert (i8_eq : forall x, is_byte x -> i8 x = 1 -> x = 1).
  { intros x Hx Hx1. unfold is_byte in Hx. unfold i8 in Hx1.
    destruct (Z_lt_ge_dec x 128).
    - rewrite Z.mod_small in Hx1; lia.
    - replace (x + 2^7) with (x - 128 + 1 * 2^8) in Hx1 by lia.
      rewrite Z.mod_add in Hx1 by lia. rewrite Z.mod_small in Hx1; lia. }
  destruct (Nat.eqb_spec i 0) as [->|Hi0].
  { destruct (Z.eqb_spec (i8 b) 1) as [e|ne]; [|reflexivity].
    apply i8_eq in e; auto. congruence. }
  rewrite H0. change (i8 1 =? 1) with true. cbn [negb].
  rewrite (sub_set_byte_out i b buf 18 2) by lia. rewrite Hsz.
  replace (len buf <? 24 + len (r_data r)) with false by (symmetry; apply Z.ltb_ge; lia).
  assert (Hcrc0 : crc_update (crc_update 0 (sub 0 20 buf)) (sub 24 (len (r_data r)) buf)
          = unbe (sub 20 4 buf)).
  { rewrite Hd, Hh, Hc. unfold rec_crc. destruct Hr as (_ & _ & _ & _ & -> & _).
    unfold len. rewrite Nat2Z.id, firstn_all. auto. }
  assert (U0 : is_u32 0) by (unfold is_u32; lia).
  assert (i8neq : forall x y, x <> y -> (x =? y) = false) by (intros; now apply Z.eqb_neq).
  (* where is i? *)
  destruct (Nat.lt_ge_cases i 20) as [Hlt|Hge].
  - (* header *)
    rewrite (sub_set_byte_in i b buf 0 20) by lia.
    rewrite (sub_set_byte_out i b buf 20 4) by lia.
    rewrite (sub_set_byte_out i b buf 24 _) by (unfold len in *; lia).
    rewrite <- Hcrc0. cbv zeta. rewrite !crc_update_app.
    set (A := sub 0 20 buf). set (B := sub 24 (len (r_data r)) buf).
    assert (HA : length A = 20%nat) by (unfold A; rewrite sub_length; lia).
    change (Z.to_nat 0) with 0%nat. rewrite Nat.sub_0_r.
    assert (set_byte i b A ++ B = set_byte i b (A ++ B)) as ->.
    { unfold set_byte. rewrite firstn_app, skipn_app.
      replace (i - length A)%nat with 0%nat by lia.
      replace (S i - length A)%nat with 0%nat by lia.
      cbn [firstn skipn]. rewrite app_nil_r, <- app_assoc. reflexivity. }
    rewrite i8neq; [reflexivity|].
    apply crc_set_byte; auto.
    + apply Forall_app; split; apply is_bytes_sub; auto.
    + rewrite app_length; lia.
    + rewrite app_nth1 by lia. unfold A. rewrite nth_sub by lia. exact Hne.
  - destruct (Nat.lt_ge_cases i 24) as [Hlt4|Hge4].
    + (* stored checksum *)
      rewrite (sub_set_byte_out i b buf 0 20) by lia.
      rewrite (sub_set_byte_in i b buf 20 4) by lia.
      rewrite (sub_set_byte_out i b buf 24 _) by (unfold len in *; lia).
      rewrite Hcrc0. rewrite i8neq; [reflexivity|].
      assert (Hlen4 : length (sub 20 4 buf) = 4%nat) by (rewrite sub_length; lia).
      intros Heq. apply unbe_inj in Heq.
      * apply (f_equal (fun l => nth (i - Z.to_nat 20) l 0)) in Heq.
        rewrite nth_set_byte, Nat.eqb_refl in Heq by lia.
        rewrite nth_sub in Heq by lia.
        apply Hne. rewrite <- Heq. f_equal. lia.
      * now apply is_bytes_sub.
      * unfold set_byte. apply Forall_app; split; [apply is_bytes_firstn, is_bytes_sub; auto|].
        constructor; auto. apply is_bytes_skipn, is_bytes_sub; auto.
      * rewrite set_byte_length; auto. lia.
    + (* data *)
      rewrite (sub_set_byte_out i b buf 0 20) by lia.
      rewrite (sub_set_byte_out i b buf 20 4) by lia.
      rewrite (sub_set_byte_in i b buf 24 _) by (unfold len in *; lia).
      rewrite <- Hcrc0. rewrite i8neq; [reflexivity|].
      apply crc_set_byte; auto.
      * now apply crc_update_range.
      * now apply is_bytes_sub.
      * rewrite sub_length; unfold len in *; lia.
      * rewrite nth_sub by (unfold len in *; lia).
        replace (Z.to_nat 24 + (i - Z.to_nat 24))%nat with i by lia. exact Hne.
Qed.
