(** A damaged record of any kind in a data file. *)
From Coq Require Import ZArith List Lia Bool.
From Verif Require Import Base Maps Crc Record RecordSpec RecordProofs Convert File FileProofs Cache CacheProofs
  Metric MetricSpec MetricFile MetricPaths MetricProofs MetricRead DbSpec DbProofs DbLog DbClient
  DamageSpec DamageFile DamageInv DamageRepr DamageDb DamageProof DamageByte.
Import ListNotations.
Open Scope Z_scope.

Lemma nth_after {A} (k n : nat) (l : list A) d : nth k (skipn n l) d = nth (n + k) l d.
Proof. revert l; induction n as [|n IH]; intros [|x l]; cbn [skipn Nat.add nth]; try reflexivity; [destruct k; reflexivity|apply IH]. Qed.
Lemma slot_whole g n t c : geom_ok g -> len c = g_size g * (g_cap g + 1) -> 0 <= n < g_cap g -> len t <= g_size g ->
  slot g (put (offset g n) t c) n = t ++ skipn (length t) (slot g c n).
Proof.
  intros Hg Hl Hn Hk. pose proof (offset_bounds g n _ Hg Hl Hn) as [Ho1 Ho2]. destruct Hg as (Hg1 & Hg2). pose proof (len_nonneg t) as Ht.
  unfold slot. apply list_ext.
  - rewrite app_length, skipn_length, !sub_length by (rewrite ?put_len; lia). unfold len in *. lia.
  - intros i Hi. rewrite sub_length in Hi by (rewrite ?put_len; lia).
    rewrite nth_sub by lia. rewrite nth_put by lia.
    destruct (Nat.ltb_spec i (length t)) as [H|H].
    + rewrite app_nth1 by exact H. destruct (Z.leb_spec (offset g n) (Z.of_nat (Z.to_nat (offset g n) + i))), (Z.ltb_spec (Z.of_nat (Z.to_nat (offset g n) + i)) (offset g n + len t)); cbn [andb]; unfold len in *; try lia.
      f_equal. lia.
    + rewrite app_nth2 by exact H. rewrite nth_after. rewrite nth_sub by lia.
      destruct (Z.leb_spec (offset g n) (Z.of_nat (Z.to_nat (offset g n) + i))), (Z.ltb_spec (Z.of_nat (Z.to_nat (offset g n) + i)) (offset g n + len t)); cbn [andb]; unfold len in *; try lia; f_equal; lia.
Qed.
Lemma slot_whole_other g n t c m : geom_ok g -> len c = g_size g * (g_cap g + 1) -> 0 <= n < g_cap g -> len t <= g_size g ->
  -1 <= m < g_cap g -> m <> n -> slot g (put (offset g n) t c) m = slot g c m.
Proof.
  intros Hg Hl Hn Hk Hm Hne. pose proof (offset_bounds g n _ Hg Hl Hn) as [Ho1 Ho2]. destruct Hg as (Hg1 & Hg2). pose proof (len_nonneg t) as Ht.
  unfold slot. apply sub_put_other; try (unfold offset in *; nia).
Qed.

Section Whole.
Variables (N : Z) (st : db) (a : adb).
Hypothesis HR : DR FRx N st a.
Variables (name : list Z) (i ino : Z) (g : geom) (n : Z) (t : list Z) (r : record).
Hypothesis Hl : linked st name i ino.
Hypothesis Ho : openFile (contents st ino) = Ok g.
Hypothesis Hrec : f_record g n (contents st ino) = Ok r.
Hypothesis Hk : len t = 24 + len (r_data r).
Hypothesis Hbad : forall rest, parse (t ++ rest) = Err.
Hypothesis Hb : is_bytes t.
Hypothesis Hnew : (exists m, 0 <= m < n /\ f_has_record g m (contents st ino) = true) \/ (exists j ino', i < j /\ linked st name j ino').

Let st' := set_contents st ino (put (offset g n) t (contents st ino)).

Lemma whole_contents x : contents st' x = if ino =? x then put (offset g n) t (contents st ino) else contents st x.
Proof.
  unfold st', set_contents, contents. cbn [set_ino w_ino]. rewrite mget_put by apply eqb_ok_Z.
  destruct (Z.eqb ino x); reflexivity.
Qed.

Lemma whole_file : exists f, g = geom_of f /\ FRx name true f (contents st ino) /\ file_rep f (contents st ino).
Proof.
  destruct (linked_at _ _ _ HR name i ino Hl) as (am & kk & f & c & _ & _ & _ & Hc & HF).
  assert (Ec : contents st ino = c) by (unfold contents; now rewrite Hc). rewrite Ec in *.
  rewrite (fr_open _ _ repr_exact _ _ _ _ HF) in Ho. injection Ho as <-. exists f. split; [reflexivity|].
  split; [exact HF|exact (proj1 HF)].
Qed.

Lemma whole_rec : record_ok r /\ rec_Size r <= g_size g /\ 0 <= n < g_cap g.
Proof.
  destruct whole_file as (f & Eg & _ & HF). pose proof (f_record_ok_lt _ _ _ _ Hrec) as Hn.
  destruct HF as (_ & m & (Hg & Hby & Hlc & Hsl & Hm & HM & Hs) & _). rewrite <- Eg in *.
  specialize (Hs n Hn). unfold f_record in Hrec.
  destruct (Z.leb_spec (g_cap g) n), (Z.ltb_spec n 0); cbn [orb] in Hrec; try discriminate.
  destruct (nth (Z.to_nat n) (slots_of f) None) as [r'|]; cbn [slot_rep] in Hs.
  - destruct Hs as (H1 & H2 & H3). unfold readRecord in Hrec; rewrite H3 in Hrec. injection Hrec as <-. auto.
  - unfold readRecord in Hrec; rewrite (parse_empty _ Hs) in Hrec. discriminate.
Qed.

Lemma whole_k : 0 < len t <= g_size g.
Proof.
  destruct whole_rec as (Hr & Hsz & _). destruct Hr as (_ & _ & _ & _ & E & _). unfold rec_Size, recordHeaderSize in Hsz. pose proof (len_nonneg (r_data r)). lia.
Qed.

Lemma whole_parse : parse (slot g (contents st' ino) n) = Err.
Proof.
  destruct whole_file as (f & Eg & _ & HF). destruct whole_rec as (Hr & Hsz & Hn). pose proof whole_k as Hk'.
  destruct HF as (_ & m & (Hg & Hby & Hlc & _) & _). rewrite <- Eg in *.
  rewrite whole_contents, Z.eqb_refl. rewrite slot_whole by (auto; lia). apply Hbad.
Qed.

Lemma whole_damaged : damaged_db st st'.
Proof.
  split; [reflexivity|]. intros nm i' ino' g' Hl' Ho'. rewrite whole_contents.
  destruct (Z.eqb_spec ino ino') as [<-|Hne].
  - rewrite Ho in Ho'. injection Ho' as <-.
    destruct whole_file as (f & Eg & _ & HF). destruct whole_rec as (Hr & Hsz & Hn). pose proof whole_k as Hk'.
    destruct HF as (_ & m & (Hg & Hby & Hlc & _) & _). rewrite <- Eg in *. pose proof (offset_bounds g n _ Hg Hlc Hn) as [Ho1 Ho2].
    pose proof whole_parse as HP. rewrite whole_contents, Z.eqb_refl in HP.
    split; [split; [|split; [|split]]|].
    + rewrite put_len by lia. reflexivity.
    + apply is_bytes_put; [exact Hb|exact Hby].
    + apply sub_put_other; lia.
    + intros x Hx. destruct (Z.eq_dec x n) as [->|Hne]; [right; exact HP|]. left. f_equal. apply slot_whole_other; auto; lia.
    + intros Hlast x Hx Hfree. destruct (Z.eq_dec x n) as [->|Hne]; [|apply slot_whole_other; auto; lia]. exfalso.
      destruct Hnew as [(m' & Hm' & Hh)|(j & ino' & Hj & Hl2)].
      * rewrite (Hfree m' Hm') in Hh. discriminate.
      * assert (Enm : nm = name /\ i' = i).
        { destruct HR as (HI & _). pose proof (di_inj _ _ _ _ _ HI _ _ _ (proj2 Hl) (proj2 Hl')) as E.
          apply path_inj in E; [|exact (di_root _ _ _ _ _ HI)|exact (proj1 Hl)|exact (proj1 Hl')]. destruct E; auto. }
        destruct Enm as (-> & ->). exact (Hlast j ino' Hj Hl2).
  - split; [|intros _ x _ _; reflexivity]. apply damaged_refl.
    destruct (linked_at _ _ _ HR nm i' ino' Hl') as (am & kk & f & c & _ & _ & _ & Hc & ((_ & m & (_ & Hby & _) & _) & _)).
    unfold contents. now rewrite Hc.
Qed.

Lemma whole_lost nm v : lost st st' nm v -> nm = name /\ exists f vs1 vs2, file_rep f (contents st ino) /\ g = geom_of f /\
  a_vals f = vs1 ++ v :: vs2 /\ a_cap f - used_ (a_size f) (v :: vs2) <= n < a_cap f - used_ (a_size f) vs2.
Proof.
  intros (i' & ino' & g' & p & Hl' & Ho' & Hst & Hn). rewrite whole_contents in Hn.
  destruct (Z.eqb_spec ino ino') as [<-|Hne]; [|contradiction].
  rewrite Ho in Ho'. injection Ho' as <-.
  assert (Enm : nm = name).
  { destruct HR as (HI & _). pose proof (di_inj _ _ _ _ _ HI _ _ _ (proj2 Hl) (proj2 Hl')) as E.
    apply path_inj in E; [|exact (di_root _ _ _ _ _ HI)|exact (proj1 Hl)|exact (proj1 Hl')]. destruct E; auto. }
  split; [exact Enm|]. destruct whole_file as (f & Eg & _ & HF).
  rewrite Eg in Hst. destruct (stored_in f _ v p HF Hst) as (vs1 & vs2 & E & Ep). exists f, vs1, vs2.
  split; [exact HF|]. split; [exact Eg|]. split; [exact E|].
  pose proof HF as (((Hs & _) & _) & _). destruct (recs_spec (a_size f) v Hs (proj1 Hst)) as (_ & _ & L & _).
  rewrite <- Ep. cbn [used_] in Ep.
  destruct (Z_lt_ge_dec n p) as [Hlt|Hge]; [|destruct (Z_lt_ge_dec n (a_cap f - used_ (a_size f) vs2)); [lia|]]; exfalso; apply Hn; rewrite <- Eg in Hst;
    (refine (proj1 (stored_ext g _ _ v p _) Hst)); intros x Hx; apply slot_record;
    destruct whole_rec as (_ & _ & Hn'); pose proof whole_k as Hk';
    destruct HF as (_ & m & (Hg & Hby & Hlc & _) & _); rewrite <- Eg in *.
  all: assert (Hx' : p <= x < a_cap f - used_ (a_size f) vs2) by (rewrite Eg in Hx; cbn [g_size geom_of] in Hx; lia).
  all: pose proof (used_nonneg (a_size f) vs2 ltac:(lia)) as Hu0.
  all: assert (Hp0 : 0 <= p) by
    (pose proof (proj2 Hst) as Hs0; specialize (Hs0 0%nat); rewrite Eg in Hs0; cbn [g_size geom_of] in Hs0;
     destruct (recs (a_size f) v) as [|r0 rs] eqn:Er;
     [change (len (@nil record)) with 0 in L; lia|specialize (Hs0 r0 eq_refl); apply f_record_ok_lt in Hs0; lia]).
  all: apply slot_whole_other; auto; try lia; rewrite ?Eg; cbn [g_cap geom_of]; lia.
Qed.

Lemma whole_one nm v nm' v' : lost st st' nm v -> lost st st' nm' v' -> nm = nm' /\ v = v'.
Proof.
  intros H1 H2. destruct (whole_lost nm v H1) as (-> & f & vs1 & vs2 & HF & Eg & E & Hn).
  destruct (whole_lost nm' v' H2) as (-> & f' & ws1 & ws2 & HF' & Eg' & E' & Hn'). split; [reflexivity|].
  assert (Ef : a_cap f' = a_cap f /\ a_size f' = a_size f) by (rewrite Eg in Eg'; unfold geom_of in Eg'; injection Eg'; auto).
  destruct Ef as (Ef1 & Ef2). rewrite Ef1, Ef2 in *.
  pose proof HF as (((Hs & _) & _) & _).
  assert (Hin : exists x y, a_vals f = x ++ v' :: y /\ a_cap f - used_ (a_size f) (v' :: y) = a_cap f - used_ (a_size f) (v' :: ws2)).
  { pose proof (stored_rep f' _ ws1 v' ws2 HF' E') as Hst. rewrite <- Eg', Eg, Ef1, Ef2 in Hst.
    destruct (stored_in f _ v' _ HF Hst) as (x & y & Ex & Ey). exists x, y. split; [exact Ex|]. lia. }
  destruct Hin as (x & y & Ex & Ey). apply (used_overlap (a_size f) (a_cap f) vs1 v vs2 x v' y n); auto; try lia.
  - now rewrite <- E.
  - cbn [used_] in *. lia.
Qed.
End Whole.
