(** C76: data files damaged while nobody writes them (bit rot, bad sectors). *)
From Coq Require Import ZArith List Lia Bool.
From Verif Require Import Base Maps Crc Record RecordSpec RecordProofs Pb Meta Convert File FileProofs Cache CacheProofs
  Metric MetricSpec MetricFile MetricPaths MetricProofs MetricRead DbSpec DbProofs DbLog DbClient
  DamageSpec DamageFile DamageInv DamageRepr DamageDb DamageProof DamageByte Props_Storage.
Import ListNotations.
Open Scope Z_scope.

(** Take the database after any history of calls (writes, queries, restarts with
    other options), damage its files, and continue with any further calls: every
    write answers as it would have, every query reports exactly the values it
    would have reported, in the same order and with intact contents, except for
    the values whose records were damaged; QueryLatest reports the newest value
    unless that one was damaged. *)
Theorem C76_damage_answers :
  forall root size cap max handles rand ops ops2 st outs1 st',
  history_ok root size cap handles rand (ops ++ ops2) ->
  c_run ops (db_empty root size cap max handles rand) = (st, outs1) ->
  damaged_db st st' ->
  all_answer (lost st st') ops2 (snd (c_run ops2 st)) (snd (c_run ops2 st')).
Proof.
  intros root size cap max handles rand ops ops2 st outs1 st' (Hr & Hp & Ho & Hn) E HD.
  exact (damage_answers root size cap max handles rand ops ops2 st outs1 st' _ _ Hr Hp Ho Hn E HD eq_refl eq_refl).
Qed.
Print Assumptions C76_damage_answers.

(** QueryLatest on a damaged database is the first value of an unbounded query *)
Theorem C76_latest :
  forall root size cap max handles rand ops ops2 st outs1 st' name,
  history_ok root size cap handles rand (ops ++ ops2) ->
  c_run ops (db_empty root size cap max handles rand) = (st, outs1) ->
  damaged_db st st' ->
  exists l r,
    snd (c_step (OQuery name (2 ^ 63 - 1)) (fst (c_run ops2 st'))) = RQuery l r /\
    snd (c_step (OLatest name) (fst (c_run ops2 st'))) = RLatest (hd_error l) r.
Proof.
  intros root size cap max handles rand ops ops2 st outs1 st' name (Hr & Hp & Ho & Hn) E HD.
  exact (damage_latest root size cap max handles rand ops ops2 st outs1 st' Hr Hp Ho Hn E HD name).
Qed.
Print Assumptions C76_latest.

(** Damage that no stored value is affected by (in padding, in free slots, in
    records of overwritten values) is never visible. *)
Lemma all_answer_same (P : list Z -> value -> Prop) ops outs outs' : (forall nm v, ~ P nm v) ->
  all_answer P ops outs outs' -> outs' = outs.
Proof.
  intros HP. induction 1 as [|o out out' ops outs outs' H _ ->]; [reflexivity|]. f_equal.
  assert (Hw : forall nm l l', without (P nm) l l' -> l' = l).
  { intros nm l l' W. induction W as [|v l l' Hv W IH|v l l' Hv W IH]; [reflexivity|now subst l'|exfalso; exact (HP _ _ Hv)]. }
  destruct o, out, out'; cbn [answers] in H; try exact H.
  - destruct H as (-> & H). now rewrite (Hw _ _ _ H).
  - destruct H as (-> & H1 & H2 & _). f_equal. destruct o; [|now apply H1]. now apply H2.
Qed.
Theorem C76_nothing_lost :
  forall root size cap max handles rand ops ops2 st outs1 st',
  history_ok root size cap handles rand (ops ++ ops2) ->
  c_run ops (db_empty root size cap max handles rand) = (st, outs1) ->
  damaged_db st st' -> (forall name v, ~ lost st st' name v) ->
  snd (c_run ops2 st') = snd (c_run ops2 st).
Proof.
  intros root size cap max handles rand ops ops2 st outs1 st' H E HD HL.
  exact (all_answer_same _ _ _ _ HL (C76_damage_answers root size cap max handles rand ops ops2 st outs1 st' H E HD)).
Qed.
Print Assumptions C76_nothing_lost.

(** One byte [b] written over the byte [k] of the record number [n] of any data
    file, not one of the two length bytes of the record, and not in the newest
    record of the metric: all files can still be opened, and at most one value
    is lost; the answers to all further calls are those of the undamaged
    database without it. *)
Theorem C76_one_byte :
  forall root size cap max handles rand ops ops2 st outs1 name i ino g n r k b,
  history_ok root size cap handles rand (ops ++ ops2) ->
  c_run ops (db_empty root size cap max handles rand) = (st, outs1) ->
  linked st name i ino -> openFile (contents st ino) = Ok g -> f_record g n (contents st ino) = Ok r ->
  0 <= k < 24 + len (r_data r) -> ~ (18 <= k < 20) -> is_byte b ->
  (exists m, 0 <= m < n /\ f_has_record g m (contents st ino) = true) \/ (exists j ino', i < j /\ linked st name j ino') ->
  let st' := set_contents st ino (put (offset g n + k) [b] (contents st ino)) in
  damaged_db st st' /\
  (forall nm v nm' v', lost st st' nm v -> lost st st' nm' v' -> nm = nm' /\ v = v') /\
  all_answer (lost st st') ops2 (snd (c_run ops2 st)) (snd (c_run ops2 st')).
Proof.
  intros root size cap max handles rand ops ops2 st outs1 name i ino g n r k b H E Hl Ho Hrec Hk Hlen Hb Hnew st'.
  pose proof H as (Hr & Hp & Hok & Hn). rewrite app_length in Hn. apply ops_ok_app in Hok. destruct Hok as (Ho1 & _).
  destruct (history_exact root size cap max handles rand ops Hr Hp Ho1 ltac:(lia)) as (st0 & a & outs0 & E0 & HR & _).
  rewrite E0 in E. injection E as -> ->.
  assert (HD : damaged_db st st') by (unfold st'; eapply byte_damaged; eassumption).
  split; [exact HD|]. split.
  - intros nm v nm' v' H1 H2. unfold st' in *. eapply byte_one; try exact HR; eassumption.
  - exact (C76_damage_answers root size cap max handles rand ops ops2 st outs1 st' H E0 HD).
Qed.
Print Assumptions C76_one_byte.

(** a database with two files: values 1, 2, 3 in the first, 4 in the second; a
    byte of the record of the value 2 changed *)
Definition dmg_ops : list op := [OWrite ex_name (small 1); OWrite ex_name (small 2); OWrite ex_name (small 3); OWrite ex_name (small 4)].
Definition ex_db : db := fst (c_run dmg_ops (db_empty ex_root 79 3 0 2 prng)).
Definition ex_flip (ino off : Z) : db := set_contents ex_db ino (put off [99] (contents ex_db ino)).
Definition ex_hurt : db := ex_flip 1 (offset (Geom 3 79) 1 + 24).
Definition dmg_ops2 : list op := [OQuery ex_name 10; OLatest ex_name; OWrite ex_name (two 5); OReopen 79 3 0 2 prng; OQuery ex_name 10].

Example C76_example_history : history_ok ex_root 79 3 2 prng (dmg_ops ++ dmg_ops2).
Proof. unfold dmg_ops, dmg_ops2. cbn [app]. ok_history. Qed.
Example C76_example : damaged_db ex_db ex_hurt /\ lost ex_db ex_hurt ex_name (small 2) /\
  snd (c_run dmg_ops2 ex_db) =
    [RQuery [small 4; small 3; small 2; small 1] (Ok tt); RLatest (Some (small 4)) (Ok tt); RWrite (Ok true); RReopen;
     RQuery [two 5; small 4; small 3; small 2; small 1] (Ok tt)] /\
  snd (c_run dmg_ops2 ex_hurt) =
    [RQuery [small 4; small 3; small 1] (Ok tt); RLatest (Some (small 4)) (Ok tt); RWrite (Ok true); RReopen;
     RQuery [two 5; small 4; small 3; small 1] (Ok tt)].
Proof.
  assert (Hl : linked ex_db ex_name 1 1) by (split; [split; reflexivity || (vm_compute; discriminate)|vm_compute; reflexivity]).
  split; [|split; [|split; vm_compute; reflexivity]].
  - refine (proj1 (C76_one_byte ex_root 79 3 0 2 prng dmg_ops dmg_ops2 ex_db _ ex_name 1 1 (Geom 3 79) 1 (Rec 1 2 0 2 1 [2]) 24 99
      C76_example_history _ Hl _ _ _ _ _ _)).
    + unfold ex_db. apply surjective_pairing.
    + vm_compute. reflexivity.
    + vm_compute. reflexivity.
    + vm_compute. split; [discriminate|reflexivity].
    + lia.
    + unfold is_byte. lia.
    + left. exists 0. split; [lia|vm_compute; reflexivity].
  - exists 1, 1, (Geom 3 79), 1. split; [exact Hl|]. split; [vm_compute; reflexivity|]. split.
    + split; [ok_history|]. assert (Er : recs (g_size (Geom 3 79)) (small 2) = [Rec 1 2 0 2 1 [2]]) by (vm_compute; reflexivity).
      rewrite Er. intros [|[|j]] r; cbn [nth_error]; intros [= <-]. vm_compute. reflexivity.
    + intros (_ & H). specialize (H 0%nat (Rec 1 2 0 2 1 [2]) eq_refl). vm_compute in H. discriminate.
Qed.

(** What is excluded above.  (1) One changed byte in the newest record of a
    metric: no value can be written to this metric any more, neither by the same
    process nor after a restart. *)
Theorem C76_newest_record_refuted :
  exists st', st' = ex_flip 2 (offset (Geom 3 79) 2 + 24) /\
  (forall v, snd (c_step (OWrite ex_name v) st') = RWrite Err) /\
  (forall v, snd (c_step (OWrite ex_name v) (fst (c_step (OReopen 79 3 0 2 prng) st'))) = RWrite Err) /\
  snd (c_step (OQuery ex_name 10) st') = RQuery [small 3; small 2; small 1] (Ok tt).
Proof.
  eexists. split; [reflexivity|]. split; [|split].
  - intros [s e d]. vm_compute. reflexivity.
  - intros [s e d]. vm_compute. reflexivity.
  - vm_compute. reflexivity.
Qed.
Print Assumptions C76_newest_record_refuted.

(** (2) One changed byte in the metadata of an older file: queries report the
    values of the newer files and then an error, everything in the file is lost;
    in the metadata of the newest file: nothing can be read or written. *)
Theorem C76_metadata_refuted :
  snd (c_run [OQuery ex_name 10; OLatest ex_name; OWrite ex_name (small 5)] (fst (c_step (OReopen 79 3 0 2 prng) (ex_flip 1 30)))) =
    [RQuery [small 4] Err; RLatest (Some (small 4)) (Ok tt); RWrite (Ok true)] /\
  snd (c_run [OQuery ex_name 10; OLatest ex_name; OWrite ex_name (small 5)] (fst (c_step (OReopen 79 3 0 2 prng) (ex_flip 2 30)))) =
    [RQuery [] Err; RLatest None Err; RWrite Err].
Proof. vm_compute. split; reflexivity. Qed.
Print Assumptions C76_metadata_refuted.

(** (3) A file cut off below its head pointer: looking for the head does not
    come to an end (metric.go:118-143 counts up from a number above the capacity
    until it overflows), a file cut off inside its metadata record: slice out of
    range. *)
Definition ex_cut (k : nat) : db := set_contents ex_db 2 (firstn k (contents ex_db 2)).
Theorem C76_truncated_refuted :
  snd (c_run [OQuery ex_name 10] (fst (c_step (OReopen 79 3 0 2 prng) (ex_cut 158)))) = [RQuery [] Diverge] /\
  snd (c_run [OQuery ex_name 10] (fst (c_step (OReopen 79 3 0 2 prng) (ex_cut 70)))) = [RQuery [] Panic].
Proof. vm_compute. split; reflexivity. Qed.
Print Assumptions C76_truncated_refuted.
