(** One changed byte in a data file. *)
From Coq Require Import ZArith List Lia Bool.
From Verif Require Import Base Maps Crc Record RecordSpec RecordProofs Convert File FileProofs Cache CacheProofs
  Metric MetricSpec MetricFile MetricPaths MetricProofs MetricRead DbSpec DbProofs DbLog DbClient
  DamageSpec DamageFile DamageInv DamageRepr DamageDb DamageProof.
Import ListNotations.
Open Scope Z_scope.

(** ** a stored record is the bytes of its Marshal *)
Lemma sub_cat off n m l : 0 <= off -> 0 <= n -> 0 <= m -> off + n + m <= len l ->
  sub off (n + m) l = sub off n l ++ sub (off + n) m l.
Proof.
  intros H1 H2 H3 H4. apply list_ext.
  - rewrite app_length, !sub_length by lia. lia.
  - intros i Hi. rewrite sub_length in Hi by lia. destruct (Nat.ltb_spec i (Z.to_nat n)).
    + rewrite app_nth1 by (rewrite sub_length; lia). now rewrite !nth_sub by lia.
    + rewrite app_nth2 by (rewrite sub_length; lia). rewrite sub_length by lia. rewrite !nth_sub by lia. f_equal. lia.
Qed.
Lemma sub_one off l : 0 <= off < len l -> sub off 1 l = [at_ off l].
Proof.
  intros H. apply list_ext.
  - rewrite sub_length by lia. reflexivity.
  - intros i Hi. rewrite sub_length in Hi by lia. assert (i = 0%nat) as -> by lia. rewrite nth_sub by lia.
    cbn [nth]. unfold at_. f_equal. lia.
Qed.
Lemma be_unbe_u64 l : is_bytes l -> len l = 8 -> be 8 (u64 (i64 (unbe l))) = l.
Proof.
  intros Hb Hl. assert (E : length l = 8%nat) by (unfold len in Hl; lia).
  pose proof (unbe_range l Hb) as R. rewrite E in R. change (256 ^ Z.of_nat 8) with (2 ^ 64) in R.
  assert (u64 (i64 (unbe l)) = unbe l) as ->.
  { unfold u64, i64. rewrite Zminus_mod, Zmod_mod, <- Zminus_mod.
    replace (unbe l + 2 ^ 63 - 2 ^ 63) with (unbe l) by lia. now apply Z.mod_small. }
  rewrite <- E. now apply be_unbe.
Qed.

Lemma parse_inv b r : is_bytes b -> record_ok r -> parse b = Ok r -> exists rest, b = marshal r ++ rest /\ is_bytes rest.
Proof.
  intros Hb Hr H. pose proof (parse_version b r Hb H) as HV. pose proof (parse_ok_len b r H) as L.
  unfold parse in H. unfold recordHeaderSize, recordVersion in *.
  destruct (Z.ltb_spec (len b) 24); [discriminate|]. destruct (negb _); [discriminate|].
  pose proof (unbe_range (sub 18 2 b) (is_bytes_sub _ _ _ Hb)) as Hs0.
  destruct (Z.ltb_spec (len b) (24 + unbe (sub 18 2 b))); [discriminate|].
  destruct (negb (_ =? _)) eqn:Ec; [discriminate|]. apply negb_false_iff, Z.eqb_eq in Ec.
  injection H as <-. destruct Hr as (_ & Hk & _). cbn [r_kind] in Hk.
  exists (skipn (Z.to_nat (24 + unbe (sub 18 2 b))) b). split; [|now apply is_bytes_skipn].
  set (sz := unbe (sub 18 2 b)) in *.
  assert (Hat1 : is_byte (at_ 1 b)).
  { unfold at_, is_bytes in *. rewrite Forall_forall in Hb. apply Hb, nth_In. unfold len in L. lia. }
  assert (E1 : i8 (at_ 1 b) mod 256 = at_ 1 b).
  { unfold i8. change (2 ^ 8) with 256. change (2 ^ 7) with 128. rewrite Zminus_mod, Zmod_mod, <- Zminus_mod.
    replace (at_ 1 b + 128 - 128) with (at_ 1 b) by lia. apply Z.mod_small. exact Hat1. }
  assert (E0 : i8 (at_ 0 b) mod 256 = at_ 0 b) by (rewrite HV; reflexivity).
  assert (Lsub : forall off n, 0 <= off -> 0 <= n -> off + n <= 24 -> len (sub off n b) = n) by (intros; apply sub_len; lia).
  assert (EH : header20 (Rec (i8 (at_ 0 b)) (i8 (at_ 1 b)) (i64 (unbe (sub 2 8 b))) (i64 (unbe (sub 10 8 b))) sz (sub 24 sz b)) = sub 0 20 b).
  { unfold header20. cbn [r_version r_kind r_start r_end r_size]. rewrite E0, E1.
    rewrite !be_unbe_u64 by (try apply is_bytes_sub; try apply Lsub; auto; lia).
    unfold sz. replace 2%nat with (length (sub 18 2 b)) by (pose proof (Lsub 18 2); unfold len in *; lia).
    rewrite be_unbe by now apply is_bytes_sub.
    change 20 with (1 + (1 + (8 + (8 + 2)))). rewrite !sub_cat by lia. rewrite !sub_one by lia. reflexivity. }
  unfold marshal, marshal_header, rec_crc. rewrite EH. cbn [r_size r_data].
  assert (Ef : firstn (Z.to_nat sz) (sub 24 sz b) = sub 24 sz b).
  { apply firstn_all2. unfold sub. rewrite firstn_length. lia. }
  rewrite Ef, Ec. replace 4%nat with (length (sub 20 4 b)) by (pose proof (Lsub 20 4); unfold len in *; lia).
  rewrite be_unbe by now apply is_bytes_sub.
  change (sub 0 20 b ++ sub 20 4 b) with (sub 0 20 b ++ sub (0 + 20) 4 b). rewrite <- sub_cat by lia.
  change (sub 24 sz b) with (sub (0 + (20 + 4)) sz b). rewrite <- sub_cat by lia.
  unfold sub. cbn [Z.to_nat skipn]. change (20 + 4) with 24. symmetry. apply firstn_skipn.
Qed.

Lemma slot_put g n k b c : geom_ok g -> len c = g_size g * (g_cap g + 1) -> 0 <= n < g_cap g -> 0 <= k < g_size g ->
  slot g (put (offset g n + k) [b] c) n = set_byte (Z.to_nat k) b (slot g c n).
Proof.
  intros Hg Hl Hn Hk. pose proof (offset_bounds g n _ Hg Hl Hn) as [Ho1 Ho2]. destruct Hg as (Hg1 & Hg2).
  assert (Hlb : len [b] = 1) by reflexivity.
  unfold slot. apply list_ext.
  - rewrite set_byte_length by (rewrite sub_length; lia). rewrite !sub_length by (rewrite ?put_len; lia). reflexivity.
  - intros i Hi. rewrite sub_length in Hi by (rewrite ?put_len; lia).
    rewrite nth_set_byte by (rewrite sub_length; lia). rewrite !nth_sub by lia. rewrite nth_put by lia. rewrite Hlb.
    destruct (Z.leb_spec (offset g n + k) (Z.of_nat (Z.to_nat (offset g n) + i))),
             (Z.ltb_spec (Z.of_nat (Z.to_nat (offset g n) + i)) (offset g n + k + 1)),
             (Nat.eqb_spec (Z.to_nat k) i); cbn [andb]; try lia; try reflexivity.
    replace (Z.to_nat (offset g n) + i - Z.to_nat (offset g n + k))%nat with 0%nat by lia. reflexivity.
Qed.
Lemma slot_put_other g n k b c m : geom_ok g -> len c = g_size g * (g_cap g + 1) -> 0 <= n < g_cap g -> 0 <= k < g_size g ->
  -1 <= m < g_cap g -> m <> n -> slot g (put (offset g n + k) [b] c) m = slot g c m.
Proof.
  intros Hg Hl Hn Hk Hm Hne. pose proof (offset_bounds g n _ Hg Hl Hn) as [Ho1 Ho2]. destruct Hg as (Hg1 & Hg2).
  assert (Hlb : len [b] = 1) by reflexivity.
  unfold slot. apply sub_put_other; try (unfold offset in *; nia).
Qed.

(** ** the damage *)
Lemma used_overlap size f vs1 v vs2 ws1 w ws2 n : 79 <= size -> vs1 ++ v :: vs2 = ws1 ++ w :: ws2 ->
  f - used_ size (v :: vs2) <= n < f - used_ size vs2 -> f - used_ size (w :: ws2) <= n < f - used_ size ws2 -> v = w.
Proof.
  intros Hs E H1 H2. destruct (app_eq_app _ _ _ _ E) as (l & [(E1 & E2)|(E1 & E2)]).
  - destruct l as [|x l]; [now injection E2 as <- _|]. exfalso. injection E2 as <- ->.
    rewrite used_app in H2. pose proof (used_nonneg size l Hs). lia.
  - destruct l as [|x l]; [now injection E2 as <- _|]. exfalso. injection E2 as <- ->.
    rewrite used_app in H1. pose proof (used_nonneg size l Hs). lia.
Qed.

Section Byte.
Variables (N : Z) (st : db) (a : adb).
Hypothesis HR : DR FRx N st a.
Variables (name : list Z) (i ino : Z) (g : geom) (n k b : Z) (r : record).
Hypothesis Hl : linked st name i ino.
Hypothesis Ho : openFile (contents st ino) = Ok g.
Hypothesis Hrec : f_record g n (contents st ino) = Ok r.
Hypothesis Hk : 0 <= k < 24 + len (r_data r).
Hypothesis Hlen : ~ (18 <= k < 20).
Hypothesis Hb : is_byte b.
Hypothesis Hnew : (exists m, 0 <= m < n /\ f_has_record g m (contents st ino) = true) \/ (exists j ino', i < j /\ linked st name j ino').

Let st' := set_contents st ino (put (offset g n + k) [b] (contents st ino)).

Lemma byte_contents x : contents st' x = if ino =? x then put (offset g n + k) [b] (contents st ino) else contents st x.
Proof.
  unfold st', set_contents, contents. cbn [set_ino w_ino]. rewrite mget_put by apply eqb_ok_Z.
  destruct (Z.eqb ino x); reflexivity.
Qed.

Lemma byte_file : exists f, g = geom_of f /\ FRx name true f (contents st ino) /\ file_rep f (contents st ino).
Proof.
  destruct (linked_at _ _ _ HR name i ino Hl) as (am & kk & f & c & _ & _ & _ & Hc & HF).
  assert (Ec : contents st ino = c) by (unfold contents; now rewrite Hc). rewrite Ec in *.
  rewrite (fr_open _ _ repr_exact _ _ _ _ HF) in Ho. injection Ho as <-. exists f. split; [reflexivity|].
  split; [exact HF|exact (proj1 HF)].
Qed.

Lemma byte_rec : record_ok r /\ rec_Size r <= g_size g /\ 0 <= n < g_cap g.
Proof.
  destruct byte_file as (f & Eg & _ & HF). pose proof (f_record_ok_lt _ _ _ _ Hrec) as Hn.
  destruct HF as (_ & m & (Hg & Hby & Hlc & Hsl & Hm & HM & Hs) & _). rewrite <- Eg in *.
  specialize (Hs n Hn). unfold f_record in Hrec.
  destruct (Z.leb_spec (g_cap g) n), (Z.ltb_spec n 0); cbn [orb] in Hrec; try discriminate.
  destruct (nth (Z.to_nat n) (slots_of f) None) as [r'|]; cbn [slot_rep] in Hs.
  - destruct Hs as (H1 & H2 & H3). unfold readRecord in Hrec; rewrite H3 in Hrec. injection Hrec as <-. auto.
  - unfold readRecord in Hrec; rewrite (parse_empty _ Hs) in Hrec. discriminate.
Qed.

Lemma byte_k : 0 <= k < g_size g.
Proof.
  destruct byte_rec as (Hr & Hsz & _). destruct Hr as (_ & _ & _ & _ & E & _). unfold rec_Size, recordHeaderSize in Hsz. lia.
Qed.

Lemma byte_parse : parse (slot g (contents st' ino) n) = parse (slot g (contents st ino) n) \/ parse (slot g (contents st' ino) n) = Err.
Proof.
  destruct byte_file as (f & Eg & _ & HF). destruct byte_rec as (Hr & Hsz & Hn). pose proof byte_k as Hk'.
  destruct HF as (_ & m & (Hg & Hby & Hlc & _) & _). rewrite <- Eg in *.
  rewrite byte_contents, Z.eqb_refl. rewrite slot_put by auto.
  assert (Hp : parse (slot g (contents st ino) n) = Ok r).
  { unfold f_record in Hrec. destruct (_ || _) in Hrec; [discriminate|exact Hrec]. }
  destruct (parse_inv _ r (is_bytes_sub _ _ _ Hby) Hr Hp) as (rest & E & Hrest). fold (slot g (contents st ino) n) in E. rewrite E.
  destruct (Z.eq_dec (nth (Z.to_nat k) (marshal r ++ rest) 0) b) as [Eb|Nb].
  - left. rewrite set_byte_same; [reflexivity| |exact Eb]. rewrite <- E. unfold slot.
    pose proof (offset_bounds g n _ Hg Hlc Hn). rewrite sub_length by lia. lia.
  - right. apply parse_corrupt; auto; unfold len in Hk; lia.
Qed.

Lemma byte_damaged : damaged_db st st'.
Proof.
  split; [reflexivity|]. intros nm i' ino' g' Hl' Ho'. rewrite byte_contents.
  destruct (Z.eqb_spec ino ino') as [<-|Hne].
  - rewrite Ho in Ho'. injection Ho' as <-.
    destruct byte_file as (f & Eg & _ & HF). destruct byte_rec as (Hr & Hsz & Hn). pose proof byte_k as Hk'.
    destruct HF as (_ & m & (Hg & Hby & Hlc & _) & _). rewrite <- Eg in *. pose proof (offset_bounds g n _ Hg Hlc Hn) as [Ho1 Ho2].
    pose proof byte_parse as HP. rewrite byte_contents, Z.eqb_refl in HP.
    assert (Hlb : len [b] = 1) by reflexivity. split; [split; [|split; [|split]]|].
    + rewrite put_len by lia. reflexivity.
    + apply is_bytes_put; [constructor; [exact Hb|constructor]|exact Hby].
    + apply sub_put_other; lia.
    + intros x Hx. destruct (Z.eq_dec x n) as [->|Hne]; [exact HP|]. left. f_equal. apply slot_put_other; auto; lia.
    + intros Hlast x Hx Hfree. destruct (Z.eq_dec x n) as [->|Hne]; [|apply slot_put_other; auto; lia]. exfalso.
      destruct Hnew as [(m' & Hm' & Hh)|(j & ino' & Hj & Hl2)].
      * rewrite (Hfree m' Hm') in Hh. discriminate.
      * assert (Enm : nm = name /\ i' = i).
        { destruct HR as (HI & _). pose proof (di_inj _ _ _ _ _ HI _ _ _ (proj2 Hl) (proj2 Hl')) as E.
          apply path_inj in E; [|exact (di_root _ _ _ _ _ HI)|exact (proj1 Hl)|exact (proj1 Hl')]. destruct E; auto. }
        destruct Enm as (-> & ->). exact (Hlast j ino' Hj Hl2).
  - split; [|intros _ x _ _; reflexivity]. apply damaged_refl.
    destruct (linked_at _ _ _ HR nm i' ino' Hl') as (am & kk & f & c & _ & _ & _ & Hc & ((_ & m & (_ & Hby & _) & _) & _)).
    unfold contents. now rewrite Hc.
Qed.

Lemma byte_lost nm v : lost st st' nm v -> nm = name /\ exists f vs1 vs2, file_rep f (contents st ino) /\ g = geom_of f /\
  a_vals f = vs1 ++ v :: vs2 /\ a_cap f - used_ (a_size f) (v :: vs2) <= n < a_cap f - used_ (a_size f) vs2.
Proof.
  intros (i' & ino' & g' & p & Hl' & Ho' & Hst & Hn). rewrite byte_contents in Hn.
  destruct (Z.eqb_spec ino ino') as [<-|Hne]; [|contradiction].
  rewrite Ho in Ho'. injection Ho' as <-.
  assert (Enm : nm = name).
  { destruct HR as (HI & _). pose proof (di_inj _ _ _ _ _ HI _ _ _ (proj2 Hl) (proj2 Hl')) as E.
    apply path_inj in E; [|exact (di_root _ _ _ _ _ HI)|exact (proj1 Hl)|exact (proj1 Hl')]. destruct E; auto. }
  split; [exact Enm|]. destruct byte_file as (f & Eg & _ & HF).
  rewrite Eg in Hst. destruct (stored_in f _ v p HF Hst) as (vs1 & vs2 & E & Ep). exists f, vs1, vs2.
  split; [exact HF|]. split; [exact Eg|]. split; [exact E|].
  pose proof HF as (((Hs & _) & _) & _). destruct (recs_spec (a_size f) v Hs (proj1 Hst)) as (_ & _ & L & _).
  rewrite <- Ep. cbn [used_] in Ep.
  destruct (Z_lt_ge_dec n p) as [Hlt|Hge]; [|destruct (Z_lt_ge_dec n (a_cap f - used_ (a_size f) vs2)); [lia|]]; exfalso; apply Hn; rewrite <- Eg in Hst;
    (refine (proj1 (stored_ext g _ _ v p _) Hst)); intros x Hx; apply slot_record;
    destruct byte_rec as (_ & _ & Hn'); pose proof byte_k as Hk';
    destruct HF as (_ & m & (Hg & Hby & Hlc & _) & _); rewrite <- Eg in *.
  all: assert (Hx' : p <= x < a_cap f - used_ (a_size f) vs2) by (rewrite Eg in Hx; cbn [g_size geom_of] in Hx; lia).
  all: pose proof (used_nonneg (a_size f) vs2 ltac:(lia)) as Hu0.
  all: assert (Hp0 : 0 <= p) by
    (pose proof (proj2 Hst) as Hs0; specialize (Hs0 0%nat); rewrite Eg in Hs0; cbn [g_size geom_of] in Hs0;
     destruct (recs (a_size f) v) as [|r0 rs] eqn:Er;
     [change (len (@nil record)) with 0 in L; lia|specialize (Hs0 r0 eq_refl); apply f_record_ok_lt in Hs0; lia]).
  all: apply slot_put_other; auto; rewrite ?Eg; cbn [g_cap geom_of]; lia.
Qed.

Lemma byte_one nm v nm' v' : lost st st' nm v -> lost st st' nm' v' -> nm = nm' /\ v = v'.
Proof.
  intros H1 H2. destruct (byte_lost nm v H1) as (-> & f & vs1 & vs2 & HF & Eg & E & Hn).
  destruct (byte_lost nm' v' H2) as (-> & f' & ws1 & ws2 & HF' & Eg' & E' & Hn'). split; [reflexivity|].
  assert (Ef : a_cap f' = a_cap f /\ a_size f' = a_size f) by (rewrite Eg in Eg'; unfold geom_of in Eg'; injection Eg'; auto).
  destruct Ef as (Ef1 & Ef2). rewrite Ef1, Ef2 in *.
  pose proof HF as (((Hs & _) & _) & _).
  assert (Hin : exists x y, a_vals f = x ++ v' :: y /\ a_cap f - used_ (a_size f) (v' :: y) = a_cap f - used_ (a_size f) (v' :: ws2)).
  { pose proof (stored_rep f' _ ws1 v' ws2 HF' E') as Hst. rewrite <- Eg', Eg, Ef1, Ef2 in Hst.
    destruct (stored_in f _ v' _ HF Hst) as (x & y & Ex & Ey). exists x, y. split; [exact Ex|]. lia. }
  destruct Hin as (x & y & Ex & Ey). apply (used_overlap (a_size f) (a_cap f) vs1 v vs2 x v' y n); auto; try lia.
  - now rewrite <- E.
  - cbn [used_] in *. lia.
Qed.
End Byte.
