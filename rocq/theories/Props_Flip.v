(** C88: the strength of the checksum of a record. *)
From Coq Require Import ZArith List Lia Bool.
From Verif Require Import Base Maps Crc CrcProofs Record RecordSpec RecordProofs Convert File FileProofs Cache CacheProofs
  Metric MetricSpec MetricFile MetricPaths MetricProofs MetricRead DbSpec DbProofs DbLog DbClient
  DamageSpec DamageFile DamageInv DamageRepr DamageDb DamageProof DamageByte DamageRec Props_Storage Props_Damage
  FlipSpec CrcBits CrcOrder CrcFlip.
Import ListNotations.
Open Scope Z_scope.

(** two equal checksums of different contents *)
Lemma same_checksum x y c d : is_bytes x -> is_bytes y -> length x = length y -> is_bytes c -> is_bytes d -> length c = 4%nat -> length d = 4%nat ->
  Z.of_nat (8 * length x) + 33 < mersenne -> crc_update 0 x = unbe c -> crc_update 0 y = unbe d ->
  Nat.odd (flips x y + flips c d) = true \/ (flips x y + flips c d = 2)%nat -> False.
Proof.
  intros Hx Hy L Hc Hd Lc Ld N Ex Ey H. assert (U : is_u32 (Z.lxor mask32 0)) by (apply lxor_range; [lia|apply mask32_range|unfold is_u32; lia]).
  assert (D : crc_bits 0 (diff (bits x) (bits y)) = Z.lxor (unbe c) (unbe d)).
  { rewrite <- Ex, <- Ey. unfold crc_update. rewrite !fold_bits by assumption. rewrite lxor4, Z.lxor_nilpotent, Z.lxor_0_l. rewrite crc_bits_diff by (rewrite !bits_length; lia). now rewrite Z.lxor_nilpotent. }
  revert D. apply checksum_detects.
  - apply lxor_range; [lia| |]; [rewrite <- Ex|rewrite <- Ey]; (apply crc_update_range; unfold is_u32; lia).
  - rewrite diff_length by (rewrite !bits_length; lia). rewrite bits_length. exact N.
  - rewrite checksum_flips by assumption. rewrite <- flips_count. exact H.
Qed.

(** a damaged record, split like an intact one *)
Lemma parse_parts h c d rest : length h = 20%nat -> length c = 4%nat -> unbe (sub 18 2 h) = len d -> parse (h ++ c ++ d ++ rest) <> Err ->
  crc_update 0 (h ++ d) = unbe c.
Proof.
  intros Lh Lc Ld. unfold parse, recordHeaderSize. destruct (_ <? 24); [congruence|]. destruct (negb _); [congruence|]. destruct (_ <? _); [congruence|].
  assert (sub 18 2 (h ++ c ++ d ++ rest) = sub 18 2 h) as ->.
  { unfold sub. rewrite skipn_app, Lh. change (Z.to_nat 18 - 20)%nat with 0%nat. cbn [skipn]. rewrite firstn_app. rewrite skipn_length, Lh. change (Z.to_nat 2 - (20 - Z.to_nat 18))%nat with 0%nat. cbn [firstn]. apply app_nil_r. }
  rewrite Ld. assert (sub 0 20 (h ++ c ++ d ++ rest) = h) as -> by (apply sub_app_here; unfold len; lia).
  assert (sub 20 4 (h ++ c ++ d ++ rest) = c) as -> by (rewrite (sub_app_skip (n:=20)) by (unfold len; lia); apply sub_app_here; unfold len; lia).
  assert (sub 24 (len d) (h ++ c ++ d ++ rest) = d) as ->.
  { rewrite (sub_app_skip (n:=20)) by (unfold len; lia). rewrite (sub_app_skip (n:=4)) by (unfold len; lia). apply sub_app_here. unfold len. lia. }
  rewrite crc_update_app. destruct (Z.eqb_spec (crc_update 0 (h ++ d)) (unbe c)); [auto|]. cbn [negb]. congruence.
Qed.

Lemma marshal_split r : record_ok r -> marshal r = header20 r ++ be 4 (rec_crc r) ++ r_data r.
Proof.
  intros (_ & _ & _ & _ & Hsz & _). unfold marshal, marshal_header. rewrite <- !app_assoc. do 2 f_equal. rewrite Hsz. unfold len. rewrite Nat2Z.id. apply firstn_all.
Qed.
Lemma split_record (t : list Z) n : length t = (24 + n)%nat -> exists h c d, t = h ++ c ++ d /\ length h = 20%nat /\ length c = 4%nat /\ length d = n.
Proof.
  intros L. exists (firstn 20 t), (firstn 4 (skipn 20 t)), (skipn 4 (skipn 20 t)). rewrite !firstn_skipn. split; [reflexivity|].
  rewrite !firstn_length, !skipn_length. lia.
Qed.
Lemma not_err {A} (x : res A) : (x <> Err -> False) -> x = Err.
Proof. destruct x; intros H; try reflexivity; exfalso; apply H; discriminate. Qed.
Lemma sub_header (h s : list Z) : length h = 20%nat -> sub 18 2 (h ++ s) = sub 18 2 h.
Proof.
  intros Lh. unfold sub. rewrite skipn_app, Lh. change (Z.to_nat 18 - 20)%nat with 0%nat. cbn [skipn]. rewrite firstn_app. rewrite skipn_length, Lh. change (Z.to_nat 2 - (20 - Z.to_nat 18))%nat with 0%nat. cbn [firstn]. apply app_nil_r.
Qed.
Lemma crc_of r : record_ok r -> crc_update 0 (header20 r ++ r_data r) = unbe (be 4 (rec_crc r)).
Proof.
  intros H. pose proof (marshal_parts r [] H) as (_ & _ & _ & _ & _ & _ & _ & _ & Hc). rewrite app_nil_r, marshal_split in Hc by exact H.
  rewrite (sub_app_skip (n:=20)) in Hc by (try apply header20_length; lia). rewrite sub_app_here in Hc by (rewrite be_length; reflexivity). rewrite Hc. destruct H as (_ & _ & _ & _ & Hs & _ & _).
  unfold rec_crc. rewrite <- crc_update_app. rewrite Hs. unfold len. now rewrite Nat2Z.id, firstn_all.
Qed.
(** what the damaged record would need in order to be accepted *)
Lemma accepted r t rest : record_ok r -> is_bytes t -> length t = length (marshal r) -> sub 18 2 t = sub 18 2 (marshal r) -> parse (t ++ rest) <> Err ->
  exists h c d, t = h ++ c ++ d /\ length h = 20%nat /\ length c = 4%nat /\ length d = length (r_data r) /\ is_bytes h /\ is_bytes c /\ is_bytes d /\ crc_update 0 (h ++ d) = unbe c.
Proof.
  intros Hr Ht L S P. pose proof (marshal_parts r [] Hr) as (_ & _ & _ & _ & _ & HS & _). rewrite app_nil_r in HS. rewrite marshal_split, !app_length, header20_length, be_length in L by exact Hr.
  destruct (split_record t (length (r_data r))) as (h & c & d & -> & Lh & Lc & Ld); [lia|]. exists h, c, d. unfold is_bytes in *. rewrite !Forall_app in Ht. destruct Ht as (Hh & Hc & Hd).
  do 7 (split; [auto|]). apply (parse_parts h c d rest); [exact Lh|exact Lc| |now rewrite <- !app_assoc in P].
  rewrite <- (sub_header h (c ++ d)) by exact Lh. rewrite S, HS. unfold len. now rewrite Ld.
Qed.
Lemma flips_detected r t rest : record_ok r -> is_bytes t -> length t = length (marshal r) -> sub 18 2 t = sub 18 2 (marshal r) ->
  Nat.odd (flips (marshal r) t) = true \/ flips (marshal r) t = 2%nat -> parse (t ++ rest) = Err.
Proof.
  intros Hr Ht L S F. apply not_err. intros P. destruct (accepted r t rest Hr Ht L S P) as (h & c & d & -> & Lh & Lc & Ld & Hh & Hc & Hd & E).
  pose proof Hr as (_ & _ & _ & _ & _ & Hlt & Hby). rewrite marshal_split in F by exact Hr. rewrite !flips_app in F by (rewrite ?header20_length, ?be_length; auto).
  apply (same_checksum (header20 r ++ r_data r) (h ++ d) (be 4 (rec_crc r)) c).
  - apply Forall_app. split; [apply header20_bytes|exact Hby].
  - apply Forall_app. now split.
  - rewrite !app_length, header20_length. lia.
  - apply be_bytes.
  - exact Hc.
  - apply be_length.
  - exact Lc.
  - rewrite app_length, header20_length. unfold len in Hlt. unfold mersenne. lia.
  - now apply crc_of.
  - exact E.
  - rewrite flips_app by (rewrite header20_length; auto). now replace (flips (header20 r) h + flips (r_data r) d + flips (be 4 (rec_crc r)) c)%nat with (flips (header20 r) h + (flips (be 4 (rec_crc r)) c + flips (r_data r) d))%nat by lia.
Qed.

Lemma app_split (c : list Z) : forall a b d, a ++ b = c ++ d -> (length a <= length c)%nat -> exists m, c = a ++ m /\ b = m ++ d.
Proof.
  induction c as [|x c IH]; intros [|y a] b d E L; cbn [app length] in *; try lia.
  - exists []. auto.
  - exists (x :: c). auto.
  - injection E as -> E. destruct (IH a b d E ltac:(lia)) as (m & -> & ->). exists m. auto.
Qed.
Lemma app_same (c : list Z) a b d : a ++ b = c ++ d -> length a = length c -> a = c /\ b = d.
Proof.
  intros E L. destruct (app_split c a b d E ltac:(lia)) as (m & -> & ->). rewrite app_length in L. destruct m; [|cbn [length] in L; lia]. rewrite app_nil_r. auto.
Qed.
Lemma sub_front (p s : list Z) : (20 <= length p)%nat -> sub 18 2 (p ++ s) = sub 18 2 p.
Proof.
  intros L. unfold sub. rewrite skipn_app, firstn_app, skipn_length. replace (Z.to_nat 2 - (length p - Z.to_nat 18))%nat with 0%nat by lia. cbn [firstn]. apply app_nil_r.
Qed.
Lemma sub_back (p s : list Z) : (length p <= 18)%nat -> sub 18 2 (p ++ s) = sub (18 - Z.of_nat (length p)) 2 s.
Proof. intros L. apply sub_app_skip; lia. Qed.

Lemma burst_detected r p x y s rest : record_ok r -> marshal r = p ++ x ++ s -> is_bytes y -> length y = length x -> (length x <= 4)%nat -> x <> y ->
  (length p + length x <= 18)%nat \/ (20 <= length p /\ length p + length x <= 24)%nat \/ (24 <= length p)%nat -> parse ((p ++ y ++ s) ++ rest) = Err.
Proof.
  intros Hr E Hy L K N W. apply not_err. intros P.
  assert (Hm : is_bytes (p ++ x ++ s)).
  { rewrite <- E, marshal_split by exact Hr. unfold is_bytes. rewrite !Forall_app. split; [apply header20_bytes|]. split; [apply be_bytes|]. apply Hr. }
  unfold is_bytes in Hm. rewrite !Forall_app in Hm. destruct Hm as (Hp & Hx & Hs).
  assert (Ht : is_bytes (p ++ y ++ s)) by (unfold is_bytes; rewrite !Forall_app; auto).
  assert (S2 : sub 18 2 (p ++ y ++ s) = sub 18 2 (marshal r)).
  { rewrite E. destruct W as [W|W]; [|rewrite !sub_front by lia; reflexivity]. rewrite !app_assoc, !sub_back by (rewrite app_length; lia). now rewrite !app_length, L. }
  destruct (accepted r (p ++ y ++ s) rest Hr Ht) as (h & c & d & Et & Lh & Lc & Ld & Hh & Hc & Hd & C); [rewrite E, !app_length; lia|exact S2|exact P|].
  pose proof (crc_of r Hr) as C0. rewrite marshal_split in E by exact Hr. pose proof (header20_length r) as L20. pose proof (be_length 4 (rec_crc r)) as L4.
  destruct W as [W|[[W1 W2]|W]].
  - destruct (app_split (header20 r) (p ++ x) s (be 4 (rec_crc r) ++ r_data r)) as (m & E1 & E2); [rewrite <- app_assoc; now symmetry|rewrite app_length; lia|].
    destruct (app_split h (p ++ y) s (c ++ d)) as (m' & F1 & F2); [rewrite <- app_assoc; exact Et|rewrite app_length; lia|].
    rewrite E2 in F2. assert (Lm : length m = length m') by (rewrite E1, !app_length in L20; rewrite F1, !app_length in Lh; lia).
    apply app_same in F2; [|exact Lm]. destruct F2 as [-> F2]. apply app_same in F2; [|lia]. destruct F2 as [<- <-].
    rewrite E1, <- !app_assoc in C0. rewrite F1, <- !app_assoc in C. rewrite <- C in C0. revert C0. subst s. apply Forall_app in Hs. apply burst_detects; auto; try (unfold is_u32; lia).
    apply Forall_app. split; [apply Hs|exact Hd].
  - destruct (app_split p (header20 r) (be 4 (rec_crc r) ++ r_data r) (x ++ s) E ltac:(lia)) as (m & E1 & E2).
    destruct (app_split p h (c ++ d) (y ++ s) (eq_sym Et) ltac:(lia)) as (m' & F1 & F2).
    rewrite E1 in F1. apply app_same in F1; [|lia]. destruct F1 as [<- <-].
    assert (Lp : (length m + length x <= 4)%nat) by (apply (f_equal (@length Z)) in E1; rewrite app_length in E1; lia).
    destruct (app_split (be 4 (rec_crc r)) (m ++ x) s (r_data r)) as (n & G1 & G2); [rewrite <- app_assoc; now symmetry|rewrite app_length; lia|].
    destruct (app_split c (m ++ y) s d) as (n' & I1 & I2); [rewrite <- app_assoc; now symmetry|rewrite app_length; lia|].
    rewrite G2 in I2. assert (Lm : length n = length n') by (rewrite G1, !app_length in L4; rewrite I1, !app_length in Lc; lia).
    apply app_same in I2; [|exact Lm]. destruct I2 as [<- <-]. rewrite C0 in C. apply unbe_inj in C; [|apply be_bytes|exact Hc|lia].
    rewrite G1, I1, <- !app_assoc in C. apply app_inv_head in C. apply app_inv_tail in C. contradiction.
  - rewrite app_assoc in E. destruct (app_split p (header20 r ++ be 4 (rec_crc r)) (r_data r) (x ++ s) E ltac:(rewrite app_length; lia)) as (m & E1 & E2).
    rewrite (app_assoc h c d) in Et. destruct (app_split p (h ++ c) d (y ++ s) (eq_sym Et) ltac:(rewrite app_length; lia)) as (m' & F1 & F2).
    rewrite E1 in F1. apply app_same in F1; [|rewrite !app_length; lia]. destruct F1 as [F1 <-]. apply app_same in F1; [|lia]. destruct F1 as [<- <-].
    rewrite E2, (app_assoc (header20 r) m (x ++ s)) in C0. rewrite F2, (app_assoc (header20 r) m (y ++ s)) in C. rewrite <- C in C0. revert C0. rewrite E1 in Hp. unfold is_bytes in *. rewrite !Forall_app in Hp.
    apply burst_detects; auto; try (unfold is_u32; lia). apply Forall_app. tauto.
Qed.

(** What a record read back from the disk is, in a few words: its bytes are
    those of [marshal r], followed by whatever fills the slot ([rest]). *)
Theorem C88_few_bits : forall r t rest, record_ok r -> few_bits (marshal r) t -> parse (t ++ rest) = Err.
Proof.
  intros r t rest Hr (Ht & L & S & F). apply (flips_detected r t rest Hr Ht L S). destruct F as [F|F]; [|left; exact F].
  destruct (flips (marshal r) t) as [|[|[|[|k]]]]; [lia|left; reflexivity|right; reflexivity|left; reflexivity|lia].
Qed.
Print Assumptions C88_few_bits.
Theorem C88_burst : forall r t rest, record_ok r -> short_burst (marshal r) t -> parse (t ++ rest) = Err.
Proof. intros r t rest Hr (p & x & y & s & E & -> & Hy & L & K & N & W). exact (burst_detected r p x y s rest Hr E Hy L K N W). Qed.
Print Assumptions C88_burst.

(** The database: the bytes of a record of any data file damaged so, not in the
    newest record of the metric (C76_newest_record_refuted): all files can still be
    opened, at most one value is lost, and all further answers are those of the
    undamaged database without it: no wrong or altered value is ever returned. *)
Theorem C88_database :
  forall root size cap max handles rand ops ops2 st outs1 name i ino g n r t,
  history_ok root size cap handles rand (ops ++ ops2) ->
  c_run ops (db_empty root size cap max handles rand) = (st, outs1) ->
  linked st name i ino -> openFile (contents st ino) = Ok g -> f_record g n (contents st ino) = Ok r ->
  let old := sub (offset g n) (24 + len (r_data r)) (contents st ino) in
  few_bits old t \/ short_burst old t ->
  (exists m, 0 <= m < n /\ f_has_record g m (contents st ino) = true) \/ (exists j ino', i < j /\ linked st name j ino') ->
  let st' := set_contents st ino (put (offset g n) t (contents st ino)) in
  damaged_db st st' /\
  (forall nm v nm' v', lost st st' nm v -> lost st st' nm' v' -> nm = nm' /\ v = v') /\
  all_answer (lost st st') ops2 (snd (c_run ops2 st)) (snd (c_run ops2 st')).
Proof.
  intros root size cap max handles rand ops ops2 st outs1 name i ino g n r t H E Hl Ho Hrec old HB Hnew st'.
  pose proof H as (Hr & Hp & Hok & Hn). rewrite app_length in Hn. apply ops_ok_app in Hok. destruct Hok as (Ho1 & _).
  destruct (history_exact root size cap max handles rand ops Hr Hp Ho1 ltac:(lia)) as (st0 & a & outs0 & E0 & HR & _).
  rewrite E0 in E. injection E as -> ->.
  assert (HFF : exists f, g = geom_of f /\ FRx name true f (contents st ino) /\ file_rep f (contents st ino)) by (eapply whole_file; eassumption).
  destruct HFF as (f & Eg & _ & HF).
  assert (HB2 : is_bytes t /\ len t = 24 + len (r_data r) /\ forall rest, parse (t ++ rest) = Err).
  { pose proof (f_record_ok_lt _ _ _ _ Hrec) as Hn0. destruct HF as (_ & m & (Hg & Hby & Hlc & Hsl & Hm & HM & Hs) & _). rewrite <- Eg in *.
    specialize (Hs n Hn0). unfold f_record in Hrec. destruct (_ || _) in Hrec; [discriminate|]. pose proof (offset_bounds g n _ Hg Hlc Hn0) as Hof. pose proof Hg as (Hg1 & Hg2).
    assert (Hr0 : record_ok r /\ rec_Size r <= g_size g).
    { destruct (nth (Z.to_nat n) (slots_of f) None) as [r'|]; cbn [slot_rep] in Hs; unfold readRecord in Hrec.
      - destruct Hs as (H1 & H2 & H3). rewrite H3 in Hrec. injection Hrec as <-. auto.
      - rewrite (parse_empty _ Hs) in Hrec. discriminate. }
    destruct Hr0 as (Hr0 & Hsz). assert (Hsl2 : is_bytes (slot g (contents st ino) n)) by (apply is_bytes_sub; exact Hby).
    destruct (parse_inv _ r Hsl2 Hr0 Hrec) as (rest0 & Er & Hrest).
    assert (Lm : len (marshal r) = 24 + len (r_data r)) by (rewrite marshal_split by exact Hr0; unfold len; rewrite !app_length, header20_length, be_length; lia).
    assert (Eold : old = marshal r).
    { unfold old. assert (Hl0 : len (slot g (contents st ino) n) = g_size g) by (unfold slot; apply sub_len; lia). rewrite Er, len_app, Lm in Hl0. pose proof (len_nonneg rest0).
      unfold slot in Er. replace (g_size g) with ((24 + len (r_data r)) + len rest0) in Er by lia. pose proof (len_nonneg (r_data r)). rewrite sub_cat in Er by lia.
      apply app_same in Er; [apply Er|]. apply Nat2Z.inj. change (len (sub (offset g n) (24 + len (r_data r)) (contents st ino)) = len (marshal r)). rewrite Lm. apply sub_len; lia. }
    rewrite Eold in HB. destruct HB as [HB|HB].
    - split; [apply HB|]. split; [|intros rest; now apply (C88_few_bits r)]. destruct HB as (_ & L & _). unfold len in *. lia.
    - split; [|split; [|intros rest; now apply (C88_burst r)]]; destruct HB as (p & x & y & s & E1 & -> & Hy & L & _).
      + assert (Hmb : is_bytes (marshal r)) by (rewrite Er in Hsl2; apply Forall_app in Hsl2; apply Hsl2). rewrite E1 in Hmb. unfold is_bytes in *. rewrite !Forall_app in *. tauto.
      + rewrite <- Lm, E1. unfold len. rewrite !app_length. lia. }
  destruct HB2 as (Ht & Lt & Hbad).
  assert (HD : damaged_db st st') by (unfold st'; eapply whole_damaged; eassumption).
  split; [exact HD|]. split.
  - intros nm v nm' v' H1 H2. unfold st' in *. eapply whole_one; try exact HR; eassumption.
  - exact (C76_damage_answers root size cap max handles rand ops ops2 st outs1 st' H E0 HD).
Qed.
Print Assumptions C88_database.

(** The checksum is CRC-32C: its published check value, over "123456789" *)
Example C88_check_value : crc_update 0 [49; 50; 51; 52; 53; 54; 55; 56; 57] = 3808858755 (* 0xe3069283 *).
Proof. vm_compute. reflexivity. Qed.

(** a record with three flipped bits (in the start time, the checksum and the
    data), and one whose data bytes 2 to 5 were all replaced *)
Definition fl_rec : record := Rec 1 2 1000 2000 8 [1; 2; 3; 4; 5; 6; 7; 8].
Definition fl_three : list Z := set_byte 30 (Z.lxor 7 128) (set_byte 21 (Z.lxor (at_ 21 (marshal fl_rec)) 1) (set_byte 9 (Z.lxor 232 4) (marshal fl_rec))).
Definition fl_burst : list Z := firstn 26 (marshal fl_rec) ++ [9; 9; 9; 9] ++ skipn 30 (marshal fl_rec).
Example C88_example : record_ok fl_rec /\ few_bits (marshal fl_rec) fl_three /\ flips (marshal fl_rec) fl_three = 3%nat /\ parse (fl_three ++ repeat 0 20) = Err /\
  short_burst (marshal fl_rec) fl_burst /\ parse (fl_burst ++ repeat 0 20) = Err /\ parse (marshal fl_rec ++ repeat 0 20) = Ok fl_rec.
Proof.
  assert (B : forall l, forallb (fun x => (0 <=? x) && (x <? 256)) l = true -> is_bytes l).
  { intros l H. apply Forall_forall. intros x Hx. rewrite forallb_forall in H. specialize (H x Hx). unfold is_byte. lia. }
  split; [unfold record_ok, is_i64, fl_rec; cbn [r_version r_kind r_start r_end r_size r_data]; repeat split; try lia; apply B; reflexivity|].
  split; [split; [apply B; vm_compute; reflexivity|split; [vm_compute; reflexivity|split; [vm_compute; reflexivity|left; vm_compute; lia]]]|].
  split; [vm_compute; reflexivity|]. split; [vm_compute; reflexivity|]. split; [|split; vm_compute; reflexivity].
  exists (firstn 26 (marshal fl_rec)), [3; 4; 5; 6], [9; 9; 9; 9], (skipn 30 (marshal fl_rec)).
  split; [vm_compute; reflexivity|]. split; [reflexivity|]. split; [apply B; reflexivity|]. split; [reflexivity|]. split; [cbn; lia|]. split; [discriminate|].
  right. right. vm_compute. lia.
Qed.

(** What is excluded above.  Four flipped bits can go unnoticed, in a record of
    700 bytes of data: it is accepted, with other data. *)
Definition fl_long : record := Rec 1 2 1000 2000 700 (repeat 0 700).
Definition fl_data4 : list Z := set_byte 659 8 (set_byte 315 16 (set_byte 95 128 (set_byte 0 1 (repeat 0 700)))).
Definition fl_four : list Z := firstn 24 (marshal fl_long) ++ fl_data4.
Theorem C88_four_bits_refuted : record_ok fl_long /\ is_bytes fl_four /\ sub 18 2 fl_four = sub 18 2 (marshal fl_long) /\
  flips (marshal fl_long) fl_four = 4%nat /\ parse fl_four = Ok (Rec 1 2 1000 2000 700 fl_data4).
Proof.
  assert (B : forall l, forallb (fun x => (0 <=? x) && (x <? 256)) l = true -> is_bytes l).
  { intros l H. apply Forall_forall. intros x Hx. rewrite forallb_forall in H. specialize (H x Hx). unfold is_byte. lia. }
  split; [unfold record_ok, is_i64, fl_long; cbn [r_version r_kind r_start r_end r_size r_data]; repeat split; try lia; try (vm_compute; reflexivity); apply B; vm_compute; reflexivity|].
  split; [apply B; vm_compute; reflexivity|]. split; [vm_compute; reflexivity|]. split; vm_compute; reflexivity.
Qed.
Print Assumptions C88_four_bits_refuted.

(** One flipped bit of the length can go unnoticed: the record is accepted, with
    a byte of its data missing. *)
Definition fl_short : record := Rec 1 2 1 2 5 [61; 44; 169; 19; 1].
Theorem C88_length_bit_refuted : record_ok fl_short /\ flips (marshal fl_short) (set_byte 19 4 (marshal fl_short)) = 1%nat /\
  parse (set_byte 19 4 (marshal fl_short)) = Ok (Rec 1 2 1 2 4 [61; 44; 169; 19]).
Proof.
  assert (B : forall l, forallb (fun x => (0 <=? x) && (x <? 256)) l = true -> is_bytes l).
  { intros l H. apply Forall_forall. intros x Hx. rewrite forallb_forall in H. specialize (H x Hx). unfold is_byte. lia. }
  split; [unfold record_ok, is_i64, fl_short; cbn [r_version r_kind r_start r_end r_size r_data]; repeat split; try lia; apply B; reflexivity|].
  split; vm_compute; reflexivity.
Qed.
Print Assumptions C88_length_bit_refuted.
