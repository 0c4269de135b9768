(** C77: power failures. *)
From Coq Require Import ZArith List Lia Bool.
From Verif Require Import Base Maps Crc Record RecordSpec RecordProofs Pb Meta Convert File FileProofs Cache CacheProofs
  Metric MetricSpec MetricFile MetricPaths MetricProofs MetricRead DbSpec DbProofs DbLog DbClient
  DamageSpec DamageFile DamageInv DamageRepr DamageDb DamageProof PowerSpec PowerFile PowerDb Props_Storage.
Import ListNotations.
Open Scope Z_scope.

(** After any history [ops0] everything reached the disk; any further calls
    [ops1] followed, during or after which the power failed.  The metric got no
    new file in the meantime.  After the restart, with any options, every query
    of the metric succeeds and reports all values a query reported at the sync, in
    the same order, and besides them only values that were written since, at
    their place in the order. *)
Theorem C77_power_failure :
  forall root size cap max handles rand ops0 ops1 name st0 outs0 st' size' cap' max' handles' rand' rds e,
  history_ok root size cap handles rand (ops0 ++ ops1) ->
  c_run ops0 (db_empty root size cap max handles rand) = (st0, outs0) -> acked name ops0 outs0 <> [] ->
  power_lost st0 ops1 name st' ->
  process_ok size' cap' handles' rand' -> Forall (reads name) rds ->
  exists l0 l l1,
    snd (c_step (OQuery name e) st0) = RQuery l0 (Ok tt) /\
    snd (c_step (OQuery name e) (fst (c_run (OReopen size' cap' max' handles' rand' :: rds) st'))) = RQuery l (Ok tt) /\
    snd (c_step (OQuery name e) (fst (c_run ops1 st0))) = RQuery l1 (Ok tt) /\
    subseq l0 l /\ subseq l l1.
Proof.
  intros root size cap max handles rand ops0 ops1 name st0 outs0 st' size' cap' max' handles' rand' rds e HH E Ha HP Hp' Hr.
  destruct (power_failure root size cap max handles rand ops0 ops1 name st0 outs0 st' HH E Ha HP)
    as (am0 & am1 & k & H0 & _ & H1 & Hs & _ & H).
  specialize (H size' cap' max' handles' rand' rds Hp' Hr (OQuery name e) (or_introl (ex_intro _ e eq_refl))).
  exists (a_query am0 e), (filter k (a_query am1 e)), (a_query am1 e).
  split; [apply H0|]. split; [exact H|]. split; [apply H1|]. apply Hs.
Qed.
Print Assumptions C77_power_failure.

(** QueryLatest reports the first value of a query without bound, and so a value at least as new as
    the one it reported at the sync. *)
Theorem C77_latest :
  forall root size cap max handles rand ops0 ops1 name st0 outs0 st' size' cap' max' handles' rand' rds x,
  history_ok root size cap handles rand (ops0 ++ ops1) ->
  c_run ops0 (db_empty root size cap max handles rand) = (st0, outs0) -> acked name ops0 outs0 <> [] ->
  power_lost st0 ops1 name st' ->
  process_ok size' cap' handles' rand' -> Forall (reads name) rds ->
  snd (c_step (OLatest name) st0) = RLatest (Some x) (Ok tt) ->
  let st2 := fst (c_run (OReopen size' cap' max' handles' rand' :: rds) st') in
  exists y l, snd (c_step (OLatest name) st2) = RLatest (Some y) (Ok tt) /\ v_end x <= v_end y /\
    snd (c_step (OQuery name (2 ^ 63 - 1)) st2) = RQuery (y :: l) (Ok tt).
Proof.
  intros root size cap max handles rand ops0 ops1 name st0 outs0 st' size' cap' max' handles' rand' rds x HH E Ha HP Hp' Hr Hx st2.
  destruct (power_failure root size cap max handles rand ops0 ops1 name st0 outs0 st' HH E Ha HP)
    as (am0 & am1 & k & _ & H0 & H1 & Hs & Hd & H).
  specialize (H size' cap' max' handles' rand' rds Hp' Hr).
  pose proof (H (OLatest name) (or_intror eq_refl)) as HLt.
  pose proof (H (OQuery name (2 ^ 63 - 1)) (or_introl (ex_intro _ _ eq_refl))) as HQ. fold st2 in HLt, HQ. cbn [r_out] in *.
  rewrite H0 in Hx. destruct (a_query am0 (2 ^ 63 - 1)) as [|x0 l0] eqn:E0; [discriminate|]. injection Hx as ->.
  specialize (Hs (2 ^ 63 - 1)). rewrite E0 in Hs. destruct Hs as (Hs & Hs1).
  pose proof (subseq_desc _ _ Hs1 (Hd _)) as Hdk.
  destruct (filter k (a_query am1 (2 ^ 63 - 1))) as [|y l] eqn:Ek; [inversion Hs|].
  exists y, l. split; [exact HLt|]. split; [|exact HQ].
  destruct (subseq_in _ _ x Hs (or_introl eq_refl)) as [->|Hin]; [lia|].
  pose proof (desc_lt _ _ _ Hdk Hin). lia.
Qed.
Print Assumptions C77_latest.

(** If nothing was accepted for the metric since the sync, then nothing changes at all. *)
Theorem C77_all_synced :
  forall root size cap max handles rand ops0 ops1 name st0 outs0 st' size' cap' max' handles' rand' rds e,
  history_ok root size cap handles rand (ops0 ++ ops1) ->
  c_run ops0 (db_empty root size cap max handles rand) = (st0, outs0) -> acked name ops0 outs0 <> [] ->
  power_lost st0 ops1 name st' ->
  process_ok size' cap' handles' rand' -> Forall (reads name) rds ->
  snd (c_step (OQuery name e) (fst (c_run ops1 st0))) = snd (c_step (OQuery name e) st0) ->
  snd (c_step (OQuery name e) (fst (c_run (OReopen size' cap' max' handles' rand' :: rds) st'))) =
  snd (c_step (OQuery name e) st0).
Proof.
  intros root size cap max handles rand ops0 ops1 name st0 outs0 st' size' cap' max' handles' rand' rds e HH E Ha HP Hp' Hr Heq.
  destruct (C77_power_failure root size cap max handles rand ops0 ops1 name st0 outs0 st' size' cap' max' handles' rand' rds e
    HH E Ha HP Hp' Hr) as (l0 & l & l1 & E0 & E2 & E1 & S0 & S1).
  rewrite E0, E1 in Heq. injection Heq as ->. rewrite E2, E0. f_equal. symmetry. now apply subseq_anti.
Qed.
Print Assumptions C77_all_synced.

(** ** an example: file with room for 4 records; the value 1 is on disk, then a
    value of two records and the value 3 are written; the second record of the
    former is not on disk when the power fails, all else is *)
Definition pw_ops0 : list op := [OWrite ex_name (small 1)].
Definition pw_ops1 : list op := [OWrite ex_name (two 2); OWrite ex_name (small 3)].
Definition pw_st0 : db := fst (c_run pw_ops0 (db_empty ex_root 79 4 0 2 prng)).
Definition pw_st1 : db := fst (c_run pw_ops1 pw_st0).
Definition pw_hole : db := set_contents pw_st1 1 (put (offset (Geom 4 79) 2) (repeat 0 79) (contents pw_st1 1)).

Lemma one_file st p : w_files st = [(p, 1)] -> forall nm i c, data_file st nm i = Some c ->
  path_of (w_root st) nm i = p /\ mget Z.eqb 1 (w_ino st) = Some c.
Proof.
  intros E nm i c. unfold data_file. rewrite E. cbn [mget].
  destruct (beqb (path_of (w_root st) nm i) p) eqn:Eb.
  - apply beqb_eq in Eb. auto.
  - discriminate.
Qed.
Lemma all_slots (P : Z -> Prop) : P 0 -> P 1 -> P 2 -> P 3 -> forall n, 0 <= n < 4 -> P n.
Proof. intros H0 H1 H2 H3 n Hn. assert (n = 0 \/ n = 1 \/ n = 2 \/ n = 3) as [-> |[-> |[-> | ->]]] by lia; assumption. Qed.
Ltac at_ k := exists (firstn k pw_ops1), (skipn k pw_ops1); eexists; split; [reflexivity|split; vm_compute; reflexivity].

(** power failure states of the example database, from what is in the file *)
Lemma pw_lost c' : len c' = 395 -> is_bytes c' ->
  sometime pw_st0 pw_ops1 ex_name 1 (fun c => sub 0 79 c' = sub 0 79 c) ->
  (forall n, 0 <= n < 4 -> sometime pw_st0 pw_ops1 ex_name 1 (fun c => slot (Geom 4 79) c' n = slot (Geom 4 79) c n) \/
    (parse (slot (Geom 4 79) c' n) = Err /\ n < 3)) ->
  power_lost pw_st0 pw_ops1 ex_name (set_contents pw_st1 1 c').
Proof.
  intros Hl Hb Hm Hs. unfold power_lost. cbv zeta. assert (E1 : fst (c_run pw_ops1 pw_st0) = pw_st1) by (unfold pw_st1; reflexivity). rewrite E1. clear E1.
  assert (Ep : w_files pw_st1 = [(path_of ex_root ex_name 1, 1)]) by (vm_compute; reflexivity).
  assert (Er : w_root pw_st1 = ex_root) by (vm_compute; reflexivity).
  assert (Ei : forall x, mget Z.eqb 1 (w_ino (set_contents pw_st1 1 x)) = Some x).
  { intros x. unfold set_contents. cbn [w_ino set_ino]. apply mget_put_same. exact eqb_ok_Z. }
  split; [reflexivity|]. split.
  - intros nm i Hi H. destruct (data_file pw_st1 nm i) as [c|] eqn:Ed; [|contradiction].
    destruct (one_file pw_st1 _ Ep nm i c Ed) as (E1 & _).
    assert (X : data_file (set_contents pw_st1 1 c') nm i = Some c'); [|congruence].
    unfold data_file. change (w_root (set_contents pw_st1 1 c')) with (w_root pw_st1).
    change (w_files (set_contents pw_st1 1 c')) with (w_files pw_st1). rewrite E1, Ep. cbn [mget]. rewrite beqb_refl. apply Ei.
  - intros i c1 g Hi Hd Ho. destruct (one_file pw_st1 _ Ep _ _ _ Hd) as (E1 & E2). rewrite Er in E1.
    apply path_inj in E1; [|discriminate|exact Hi|unfold is_i64; lia]. destruct E1 as (_ & ->).
    assert (Ec : c1 = contents pw_st1 1) by (unfold contents; now rewrite E2).
    assert (Eg : g = Geom 4 79).
    { assert (X : openFile (contents pw_st1 1) = Ok (Geom 4 79)) by (vm_compute; reflexivity). rewrite <- Ec, Ho in X. congruence. }
    subst g. exists (contents pw_st0 1), c'. split; [vm_compute; reflexivity|]. split.
    + unfold data_file. change (w_root (set_contents pw_st1 1 c')) with (w_root pw_st1).
      change (w_files (set_contents pw_st1 1 c')) with (w_files pw_st1). rewrite Ep, Er. cbn [mget]. rewrite beqb_refl. apply Ei.
    + split; [rewrite Hl, Ec; vm_compute; reflexivity|]. split; [exact Hb|]. split; [exact Hm|].
      intros n Hn. destruct (Hs n Hn) as [H|(H & Hlt)]; [now left|right; split; [exact H|]].
      cbn [g_cap] in Hn. assert (n = 0 \/ n = 1 \/ n = 2) as [-> |[-> | ->]] by lia; vm_compute; reflexivity.
Qed.
Lemma bytes_dec l : forallb (fun b => (0 <=? b) && (b <? 256)) l = true -> is_bytes l.
Proof.
  intros H. apply Forall_forall. rewrite forallb_forall in H. intros b Hb. specialize (H b Hb). unfold is_byte.
  apply andb_true_iff in H. destruct H as (H1 & H2). apply Z.leb_le in H1. apply Z.ltb_lt in H2. lia.
Qed.

Example C77_example_history : history_ok ex_root 79 4 2 prng (pw_ops0 ++ pw_ops1).
Proof. unfold pw_ops0, pw_ops1. cbn [app]. ok_history. Qed.
Example C77_example : power_lost pw_st0 pw_ops1 ex_name pw_hole /\
  snd (c_run [OQuery ex_name 10] pw_st0) = [RQuery [small 1] (Ok tt)] /\
  snd (c_run [OReopen 79 4 0 2 prng; OQuery ex_name 10; OLatest ex_name] pw_hole) =
    [RReopen; RQuery [small 3; small 1] (Ok tt); RLatest (Some (small 3)) (Ok tt)] /\
  snd (c_run [OQuery ex_name 10] pw_st1) = [RQuery [small 3; two 2; small 1] (Ok tt)].
Proof.
  split; [|vm_compute; auto]. apply pw_lost.
  - vm_compute. reflexivity.
  - apply bytes_dec. vm_compute. reflexivity.
  - at_ 2%nat.
  - apply all_slots; left; [at_ 2%nat|at_ 2%nat|at_ 0%nat|at_ 2%nat].
Qed.

(** ** What does not hold. *)

(** (1) A Write that was answered is not safe: neither Write nor Close nor
    anything else makes the data reach the disk, so the newest acknowledged
    values can be gone after a power failure.  Here both Writes after the sync were
    acknowledged and nothing of them is left. *)
Theorem C77_acked_refuted :
  let st' := set_contents pw_st1 1 (contents pw_st0 1) in
  power_lost pw_st0 pw_ops1 ex_name st' /\
  snd (c_run pw_ops1 pw_st0) = [RWrite (Ok true); RWrite (Ok true)] /\
  snd (c_run [OReopen 79 4 0 2 prng; OQuery ex_name 10; OLatest ex_name] st') =
    [RReopen; RQuery [small 1] (Ok tt); RLatest (Some (small 1)) (Ok tt)].
Proof.
  cbv zeta. split; [|vm_compute; auto]. apply pw_lost.
  - vm_compute. reflexivity.
  - apply bytes_dec. vm_compute. reflexivity.
  - at_ 0%nat.
  - apply all_slots; left; at_ 0%nat.
Qed.
Print Assumptions C77_acked_refuted.

(** (2) If the newest record is torn (its first half is on disk, the rest is
    not) the values before it can be read, but nothing can be written to the metric
    any more. *)
Definition pw_torn : db := set_contents pw_st1 1
  (put (offset (Geom 4 79) 0) (firstn 12 (slot (Geom 4 79) (contents pw_st1 1) 0) ++ repeat 0 67) (contents pw_st1 1)).
Theorem C77_torn_refuted :
  power_lost pw_st0 pw_ops1 ex_name pw_torn /\
  let st2 := fst (c_run [OReopen 79 4 0 2 prng] pw_torn) in
  snd (c_step (OQuery ex_name 10) st2) = RQuery [two 2; small 1] (Ok tt) /\
  forall v, snd (c_step (OWrite ex_name v) st2) = RWrite Err.
Proof.
  split; [|split; [vm_compute; reflexivity|intros [s e d]; vm_compute; reflexivity]]. apply pw_lost.
  - vm_compute. reflexivity.
  - apply bytes_dec. vm_compute. reflexivity.
  - at_ 2%nat.
  - apply all_slots; [right; split; [vm_compute; reflexivity|lia]|left; at_ 2%nat|left; at_ 2%nat|left; at_ 2%nat].
Qed.
Print Assumptions C77_torn_refuted.

(** (3) A file created since the sync: if its contents are not on disk (a file
    of zeros), all values of the metric are unreadable, also those in the older
    files, and nothing can be written. *)
Definition pw_ops2 : list op := [OWrite ex_name (two 2); OWrite ex_name (small 3); OWrite ex_name (small 4)].
Theorem C77_new_file_refuted :
  let st1 := fst (c_run pw_ops2 pw_st0) in
  let st' := set_contents st1 2 (repeat 0 395) in
  len (contents st1 2) = 395 /\ contents st' 1 = contents st1 1 /\
  snd (c_run [OQuery ex_name 10; OReopen 79 4 0 2 prng; OQuery ex_name 10; OLatest ex_name; OWrite ex_name (small 5)] st1) =
    [RQuery [small 4; small 3; two 2; small 1] (Ok tt); RReopen; RQuery [small 4; small 3; two 2; small 1] (Ok tt);
     RLatest (Some (small 4)) (Ok tt); RWrite (Ok true)] /\
  snd (c_run [OReopen 79 4 0 2 prng; OQuery ex_name 10; OLatest ex_name; OWrite ex_name (small 5)] st') =
    [RReopen; RQuery [] Err; RLatest None Err; RWrite Err].
Proof. cbv zeta. repeat split; vm_compute; reflexivity. Qed.
Print Assumptions C77_new_file_refuted.
