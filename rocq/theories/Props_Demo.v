(** C71: the data of the demo command. *)
From Coq Require Import ZArith List Bool Lia Permutation String.
From Verif Require Import Base Maps Pb PbRecord Float FloatProofs Agg AggSpec Writer WriterSpec Dump Server Cache FileProofs Metric MetricSpec MetricFile DbSpec DbLog DbClient
  MergeSpec ServerSpec PipelineSpec Pipeline PipelineProofs Props_Storage Props_Conc Demo.
Import ListNotations.
Open Scope Z_scope.
Open Scope list_scope.
Local Notation length := List.length.

(** ** Specification: the day before [now] in 100 pieces of 864 s, without gaps *)
Definition piece (now : Z) (values : list Z) (i : nat) : window :=
  Window (now - 86400 * 10 ^ 9 + 864 * 10 ^ 9 * Z.of_nat i) (now - 86400 * 10 ^ 9 + 864 * 10 ^ 9 * (Z.of_nat i + 1)) (map (fun v => (v, [])) values).
Definition pieces (now : Z) (draw : nat -> list Z) : list window := map (fun i => piece now (draw i) i) (seq 0 100).
(** the call stores the record of the piece *)
Definition call_for (p : params) (m : list Z) (w : window) (call : list Z * Z * Z * list Z) : Prop :=
  fst (fst (fst call)) = m /\ snd (fst (fst call)) = win_start w /\ snd (fst call) = win_end w /\ tells p w (snd call).
(** the values drawn are finite numbers, some of them, fewer than 2^63 *)
Definition draw_ok (draw : list Z -> nat -> list Z) : Prop :=
  forall m i, draw m i <> [] /\ len (draw m i) < 2 ^ 63 /\ Forall finite (draw m i).
(** times within int64 nanoseconds, no piece ends at 0 (1970) *)
Definition now_ok (now : Z) : Prop := - 2 ^ 63 + 86400 * 10 ^ 9 <= now < 2 ^ 63 /\
  forall i, (i < 100)%nat -> now - 86400 * 10 ^ 9 + 864 * 10 ^ 9 * (Z.of_nat i + 1) <> 0.

(** pieces do not overlap, leave no gap and cover the day *)
Lemma pieces_tile now draw : (forall i w w', nth_error (pieces now draw) i = Some w -> nth_error (pieces now draw) (S i) = Some w' -> win_end w = win_start w') /\
  option_map win_start (nth_error (pieces now draw) 0) = Some (now - 86400 * 10 ^ 9) /\ option_map win_end (nth_error (pieces now draw) 99) = Some now.
Proof.
  split; [|split].
  - intros i w w'. unfold pieces. rewrite !nth_error_map. destruct (nth_error (seq 0 100) i) as [a|] eqn:A; [|discriminate]. destruct (nth_error (seq 0 100) (S i)) as [b|] eqn:B; [|discriminate].
    assert (Ka : forall n k s x, nth_error (seq s n) k = Some x -> x = (s + k)%nat).
    { clear. induction n as [|n IH]; intros [|k] s x; cbn; try discriminate; [intros [= <-]; lia|]. intros H. rewrite (IH _ _ _ H). lia. }
    apply Ka in A. apply Ka in B. subst. cbn [option_map]. intros [= <-] [= <-]. cbn [piece win_end win_start]. lia.
  - cbn. f_equal. lia.
  - cbn. f_equal. lia.
Qed.

(** ** Lemmas *)
Lemma least_fold : forall vals acc, (forall v, In v vals -> finite v) -> fnan acc = false ->
  let m := fold_left (fun m v => if flt v m then v else m) vals acc in
  fnan m = false /\ (m = acc \/ In m vals) /\ flt acc m = false /\ forall v, In v vals -> flt v m = false.
Proof.
  induction vals as [|v vals IH]; intros acc F Ha; cbn [fold_left].
  - cbn zeta. split; [exact Ha|]. split; [now left|]. split; [apply flt_irrefl|intros ? []].
  - assert (Fv : fnan v = false) by (apply (F v); now left).
    assert (F' : forall x, In x vals -> finite x) by (intros x Hx; apply F; now right).
    destruct (flt v acc) eqn:E.
    + destruct (IH v F' Fv) as (A & B & C & D). cbn zeta. split; [exact A|]. split; [right; destruct B as [->|B]; [now left|now right]|]. split.
      * rewrite !flt_key in * by assumption. apply Z.ltb_lt in E. apply Z.ltb_ge in C. apply Z.ltb_ge. lia.
      * intros x [<-|Hx]; auto.
    + destruct (IH acc F' Ha) as (A & B & C & D). cbn zeta. split; [exact A|]. split; [destruct B as [B|B]; [now left|right; now right]|]. split; [exact C|].
      intros x [<-|Hx]; [|auto]. rewrite !flt_key in * by assumption. apply Z.ltb_ge in E, C. apply Z.ltb_ge. lia.
Qed.
Lemma greatest_fold : forall vals acc, (forall v, In v vals -> finite v) -> fnan acc = false ->
  let m := fold_left (fun m v => if flt m v then v else m) vals acc in
  fnan m = false /\ (m = acc \/ In m vals) /\ flt m acc = false /\ forall v, In v vals -> flt m v = false.
Proof.
  induction vals as [|v vals IH]; intros acc F Ha; cbn [fold_left].
  - cbn zeta. split; [exact Ha|]. split; [now left|]. split; [apply flt_irrefl|intros ? []].
  - assert (Fv : fnan v = false) by (apply (F v); now left).
    assert (F' : forall x, In x vals -> finite x) by (intros x Hx; apply F; now right).
    destruct (flt acc v) eqn:E.
    + destruct (IH v F' Fv) as (A & B & C & D). cbn zeta. split; [exact A|]. split; [right; destruct B as [->|B]; [now left|now right]|]. split.
      * rewrite !flt_key in * by assumption. apply Z.ltb_lt in E. apply Z.ltb_ge in C. apply Z.ltb_ge. lia.
      * intros x [<-|Hx]; auto.
    + destruct (IH acc F' Ha) as (A & B & C & D). cbn zeta. split; [exact A|]. split; [destruct B as [B|B]; [now left|right; now right]|]. split; [exact C|].
      intros x [<-|Hx]; [|auto]. rewrite !flt_key in * by assumption. apply Z.ltb_ge in E, C. apply Z.ltb_ge. lia.
Qed.
Lemma inf_above v : finite v -> flt v plus_inf = true /\ flt minus_inf v = true.
Proof.
  intros (F & N & I). unfold fnan, finf in *. unfold flt. change (fdecode plus_inf) with (SpecFloat.S754_infinity false). change (fdecode minus_inf) with (SpecFloat.S754_infinity true).
  destruct (fdecode v) as [s|s| |s m e]; try discriminate; split; destruct s; reflexivity.
Qed.
Lemma demo_describes p t0 t1 vals : vals <> [] -> Forall finite vals ->
  describes p t0 t1 (map (fun v => (v, [])) vals) (demo_record p t0 t1 vals).
Proof.
  intros Hn F. rewrite Forall_forall in F. unfold describes, demo_record, reports. cbn [d_start d_end d_obs d_min d_minid d_max d_maxid d_dist d_kind d_merged].
  split; [reflexivity|]. split; [reflexivity|]. split; [|split; [rewrite map_map, map_id; reflexivity|split; reflexivity]].
  split; [rewrite map_length; reflexivity|].
  destruct (least_fold vals plus_inf F eq_refl) as (A & B & _ & D). destruct (greatest_fold vals minus_inf F eq_refl) as (A' & B' & _ & D').
  destruct vals as [|v0 vals]; [congruence|]. destruct (inf_above v0 (F v0 (or_introl eq_refl))) as [I1 I2].
  split; split.
  - destruct B as [B|B]; [exfalso; specialize (D v0 (or_introl eq_refl)); cbn zeta in *; unfold run_min in *; congruence|].
    apply in_map_iff. exists (run_min (v0 :: vals)). split; [reflexivity|exact B].
  - intros w j Hw. apply in_map_iff in Hw as (x & [= -> _] & Hx). now apply D.
  - destruct B' as [B'|B']; [exfalso; specialize (D' v0 (or_introl eq_refl)); cbn zeta in *; unfold run_max in *; congruence|].
    apply in_map_iff. exists (run_max (v0 :: vals)). split; [reflexivity|exact B'].
  - intros w j Hw. apply in_map_iff in Hw as (x & [= -> _] & Hx). now apply D'.
Qed.
Lemma delta_eq now : demo_delta now = 864 * 10 ^ 9.
Proof. unfold demo_delta, demo_start, duration, records. replace (now - (now - 24 * 3600 * 10 ^ 9)) with (24 * 3600 * 10 ^ 9) by lia. reflexivity. Qed.

(** the arguments of the calls of one metric *)
Definition the_call p now (draw : list Z -> nat -> list Z) m i : list Z * Z * Z * list Z :=
  (m, now - 86400 * 10 ^ 9 + 864 * 10 ^ 9 * Z.of_nat i, now - 86400 * 10 ^ 9 + 864 * 10 ^ 9 * (Z.of_nat i + 1),
   drec_marshal (demo_record p (now - 86400 * 10 ^ 9 + 864 * 10 ^ 9 * Z.of_nat i) (now - 86400 * 10 ^ 9 + 864 * 10 ^ 9 * (Z.of_nat i + 1)) (draw m i))).
Definition the_calls p now draw m : list (list Z * Z * Z * list Z) := map (the_call p now draw m) (seq 0 100).

(** running the calls against the database *)
Fixpoint answers {S} (queue : S -> list Z * Z * Z * list Z -> qres * S) (calls : list (list Z * Z * Z * list Z)) (s : S) : list qres * S :=
  match calls with
  | [] => ([], s)
  | c :: calls => let '(q, s) := queue s c in let '(qs, s) := answers queue calls s in (q :: qs, s)
  end.
Definition accepted (q : qres) : Prop := exists w, q = Later w false.

Lemma loop_accepted S queue draw p now m : p_new p = true -> forall k i (s : S),
  (i + k = 100)%nat -> Forall accepted (fst (answers queue (map (the_call p now draw m) (seq i k)) s)) ->
  forall fuel, (k < fuel)%nat ->
  demo_loop S queue draw p fuel now (864 * 10 ^ 9) m (now - 86400 * 10 ^ 9 + 864 * 10 ^ 9 * Z.of_nat i) (now - 86400 * 10 ^ 9 + 864 * 10 ^ 9 * (Z.of_nat i + 1)) i s
  = Some (DemoDone, snd (answers queue (map (the_call p now draw m) (seq i k)) s), map (the_call p now draw m) (seq i k)).
Proof.
  intros Hp. induction k as [|k IH]; intros i s Hk F [|fuel] Hf; try lia; cbn [demo_loop].
  - replace (now - 86400 * 10 ^ 9 + 864 * 10 ^ 9 * Z.of_nat i <? now) with false by (symmetry; apply Z.ltb_ge; lia). reflexivity.
  - replace (now - 86400 * 10 ^ 9 + 864 * 10 ^ 9 * Z.of_nat i <? now) with true by (symmetry; apply Z.ltb_lt; lia). rewrite Hp. cbn [negb].
    cbn [seq map answers] in F |- *. fold (the_call p now draw m i).
    destruct (queue s (the_call p now draw m i)) as [q s1]. specialize (IH (Datatypes.S i) s1 ltac:(lia)).
    destruct (answers queue (map (the_call p now draw m) (seq (Datatypes.S i) k)) s1) as [qs s2]. cbn [fst snd] in *.
    destruct (Forall_inv F) as [w ->]. specialize (IH (Forall_inv_tail F) fuel ltac:(lia)).
    replace (now - 86400 * 10 ^ 9 + 864 * 10 ^ 9 * Z.of_nat (Datatypes.S i)) with (now - 86400 * 10 ^ 9 + 864 * 10 ^ 9 * (Z.of_nat i + 1)) in IH by lia.
    replace (now - 86400 * 10 ^ 9 + 864 * 10 ^ 9 * (Z.of_nat (Datatypes.S i) + 1)) with (now - 86400 * 10 ^ 9 + 864 * 10 ^ 9 * (Z.of_nat i + 1) + 864 * 10 ^ 9) in IH by lia.
    rewrite IH. reflexivity.
Qed.
Lemma answers_app {S} queue a : forall b (s : S),
  answers queue (a ++ b) s = let '(q1, s1) := answers queue a s in let '(q2, s2) := answers queue b s1 in (q1 ++ q2, s2).
Proof.
  induction a as [|c a IH]; intros b s; cbn [app answers]; [destruct (answers queue b s); reflexivity|].
  destruct (queue s c) as [q s1]. rewrite IH. destruct (answers queue a s1) as [q1 s2]. destruct (answers queue b s2) as [q2 s3]. reflexivity.
Qed.
Lemma all_accepted S queue draw p now : p_new p = true -> forall order (s : S),
  Forall accepted (fst (answers queue (flat_map (the_calls p now draw) order) s)) ->
  demo_all S queue draw p now order s = Some (DemoDone, snd (answers queue (flat_map (the_calls p now draw) order) s), flat_map (the_calls p now draw) order).
Proof.
  intros Hp. induction order as [|m order IH]; intros s F; [reflexivity|]. cbn [demo_all flat_map] in *. rewrite answers_app in *.
  pose proof (loop_accepted S queue draw p now m Hp 100 0 s eq_refl) as L. fold (the_calls p now draw m) in L.
  destruct (answers queue (the_calls p now draw m) s) as [q1 s1]. specialize (IH s1).
  destruct (answers queue (flat_map (the_calls p now draw) order) s1) as [q2 s2]. cbn [fst snd] in *. apply Forall_app in F as [F1 F2].
  specialize (L F1 101%nat ltac:(lia)). rewrite delta_eq. unfold demo_start, duration.
  change (24 * 3600 * 10 ^ 9) with (86400 * 10 ^ 9).
  replace (now - 86400 * 10 ^ 9 + 864 * 10 ^ 9 * Z.of_nat 0) with (now - 86400 * 10 ^ 9) in L by lia.
  replace (now - 86400 * 10 ^ 9 + 864 * 10 ^ 9 * (Z.of_nat 0 + 1)) with (now - 86400 * 10 ^ 9 + 864 * 10 ^ 9) in L by lia.
  rewrite L, (IH F2). reflexivity.
Qed.

(** a record of the demo as a value of the database *)
Lemma demo_good p size cap now draw m i : opts_ok size cap -> roomy p size cap -> now_ok now -> draw_ok draw -> (i < 100)%nat ->
  let '(m', t0, t1, data) := the_call p now draw m i in
  m' = m /\ val_ok (Val t0 t1 data) /\ nrec size (Val t0 t1 data) < cap /\ stored p (Val t0 t1 data) (piece now (draw m i) i).
Proof.
  intros Ho Hr [Hn Hz] Hd Hi. destruct (Hd m i) as (D1 & D2 & D3). unfold the_call. split; [reflexivity|].
  apply (record_good p size cap _ _ (map (fun v => (v, [])) (draw m i)) (demo_record p _ _ (draw m i)) Ho Hr).
  - unfold is_i64. lia.
  - unfold is_i64. lia.
  - apply Hz, Hi.
  - rewrite map_length. unfold len in D2. lia.
  - intros v j Hv. apply in_map_iff in Hv as (x & [= -> <-] & Hx). rewrite Forall_forall in D3. split; [reflexivity|]. apply (D3 v Hx).
  - apply demo_describes; assumption.
Qed.

(** ** C71 *)
(** Whatever the database is, if it accepts every record the command ends, after
    asking it to store, for every one of the six metrics (in any order), exactly
    the records of the 100 pieces of the last day, in time order. *)
Theorem C71_records : forall S (queue : S -> list Z * Z * Z * list Z -> qres * S) draw p now order s size cap,
  p_new p = true -> opts_ok size cap -> roomy p size cap -> now_ok now -> draw_ok draw -> Permutation order demo_names ->
  (forall s call, accepted (fst (queue s call))) ->
  exists s' calls, demo_all S queue draw p now order s = Some (DemoDone, s', calls) /\
    Forall2 (fun call mw => call_for p (fst mw) (snd mw) call) calls
      (flat_map (fun m => map (pair m) (pieces now (draw m))) order).
Proof.
  intros S queue draw p now order s size cap Hp Ho Hr Hn Hd _ Ha.
  exists (snd (answers queue (flat_map (the_calls p now draw) order) s)), (flat_map (the_calls p now draw) order). split.
  - apply all_accepted; [exact Hp|]. generalize (flat_map (the_calls p now draw) order) as l. clear - Ha. intros l. revert s.
    induction l as [|c l IH]; intros s; cbn [answers]; [constructor|]. specialize (Ha s c). destruct (queue s c) as [q s1]. specialize (IH s1). destruct (answers queue l s1). now constructor.
  - induction order as [|m order IH]; cbn [flat_map]; [constructor|]. apply Forall2_app; [|exact IH].
    unfold the_calls, pieces. rewrite map_map.
    assert (K : forall k i, (i + k <= 100)%nat -> Forall2 (fun call mw => call_for p (fst mw) (snd mw) call) (map (the_call p now draw m) (seq i k)) (map (fun x => (m, piece now (draw m x) x)) (seq i k))).
    { induction k as [|k IHk]; intros i Hi; cbn [seq map]; constructor; [|apply IHk; lia].
      pose proof (demo_good p size cap now draw m i Ho Hr Hn Hd ltac:(lia)) as G. unfold the_call in *. destruct G as (_ & _ & _ & _ & _ & T).
      unfold call_for. cbn [fst snd piece win_start win_end]. auto. }
    apply K. lia.
Qed.
Print Assumptions C71_records.

(** the files database of a process in which nothing else is called: Queue hands the
    value to a worker, which writes it (Metric.v) and calls the callback *)
Definition db_queue (st : db) (call : list Z * Z * Z * list Z) : qres * db :=
  let '(st, r) := c_step (written_as call) st in
  (match r with RWrite (Ok w) => Later w false | RWrite Err => Later false true | _ => Stuck end, st).
Lemma answers_run calls : forall st,
  snd (answers db_queue calls st) = fst (c_run (map written_as calls) st) /\
  fst (answers db_queue calls st) = map (fun r => match r with RWrite (Ok w) => Later w false | RWrite Err => Later false true | _ => Stuck end) (snd (c_run (map written_as calls) st)).
Proof.
  induction calls as [|c calls IH]; intros st; [split; reflexivity|]. cbn [answers map c_run].
  unfold db_queue at 1 3. destruct (c_step (written_as c) st) as [st1 r] eqn:E. destruct (IH st1) as [A B].
  destruct (answers db_queue calls st1) as [qs st2]. destruct (c_run (map written_as calls) st1) as [st3 rs]. cbn [fst snd map] in *. subst. split; [reflexivity|]. f_equal.
Qed.
Lemma wlog_calls p now draw : forall order m, NoDup order -> In m order ->
  wlog m (map written_as (flat_map (the_calls p now draw) order)) = rev (map (fun i => let '(_, t0, t1, data) := the_call p now draw m i in Val t0 t1 data) (seq 0 100)).
Proof.
  intros order m Hn Hi. unfold wlog. rewrite wlog_flat, app_nil_r. f_equal.
  assert (K : forall m' l, flat_map (to_metric m) (map written_as (map (the_call p now draw m') l)) =
    if beqb m' m then map (fun i => let '(_, t0, t1, data) := the_call p now draw m i in Val t0 t1 data) l else []).
  { intros m' l. destruct (beqb m' m) eqn:E.
    - apply beqb_eq in E. subst m'. induction l as [|i l IH]; [reflexivity|]. cbn [map flat_map]. unfold the_call at 1. cbn [written_as to_metric]. rewrite beqb_refl. cbn [app]. f_equal. exact IH.
    - induction l as [|i l IH]; [reflexivity|]. cbn [map flat_map]. unfold the_call at 1. cbn [written_as to_metric]. rewrite E. exact IH. }
  induction order as [|m' order IH]; [destruct Hi|]. cbn [flat_map]. rewrite map_app, flat_map_app. unfold the_calls at 1. rewrite K.
  inversion Hn as [|? ? N1 N2]; subst. destruct Hi as [->|Hi].
  - rewrite beqb_refl. replace (flat_map (to_metric m) (map written_as (flat_map (the_calls p now draw) order))) with (@nil value); [now rewrite app_nil_r|].
    clear - N1 K. induction order as [|m' order IH]; [reflexivity|]. cbn [flat_map]. rewrite map_app, flat_map_app. unfold the_calls at 1. rewrite K.
    destruct (beqb m' m) eqn:E; [apply beqb_eq in E; subst; exfalso; apply N1; now left|]. rewrite <- IH; [reflexivity|]. intros H. apply N1. now right.
  - destruct (beqb m' m) eqn:E; [apply beqb_eq in E; subst; contradiction|]. cbn [app]. apply IH; assumption.
Qed.
Lemma names_nodup : NoDup demo_names.
Proof. repeat (constructor; [vm_compute; intuition discriminate|]). constructor. Qed.
Lemma all_true root size cap max handles rand : forall ops,
  history_ok root size cap handles rand ops -> same_options size cap max ops -> Forall (fun o => is_write o = true) ops ->
  (forall m v, In v (wlog m ops) -> nrec size v < cap) -> (forall m, desc (wlog m ops)) ->
  Forall (fun r => r = RWrite (Ok true)) (snd (c_run ops (db_empty root size cap max handles rand))).
Proof.
  induction ops as [|o ops IH] using rev_ind; intros H Hs Hw Hn Hd; [constructor|].
  pose proof H as (H1 & H2 & H3 & H4). pose proof Hs as Hs0. apply same_options_app in Hs. destruct Hs as [Hs Ho].
  apply (ops_ok_app size cap max) in H3; [|exact Hs]. destruct H3 as [H3 H5].
  assert (Hh : history_ok root size cap handles rand ops) by (repeat split; auto; try apply H2; rewrite app_length in H4; cbn [length] in H4; lia).
  apply Forall_app in Hw as [Hw Hw']. apply Forall_inv in Hw'. destruct o as [name v| | |]; try discriminate.
  assert (W : forall m, exists pre, wlog m (ops ++ [OWrite name v]) = pre ++ wlog m ops).
  { intros m. rewrite wlog_app. cbn [wlog_]. destruct (beqb name m); [exists [v]|exists []]; reflexivity. }
  assert (Hn' : forall m x, In x (wlog m ops) -> nrec size x < cap).
  { intros m x Hx. apply (Hn m). destruct (W m) as (pre & ->). apply in_or_app. now right. }
  assert (Hd' : forall m, desc (wlog m ops)).
  { intros m. specialize (Hd m). destruct (W m) as (pre & E). rewrite E in Hd. clear - Hd. induction pre as [|x pre IH]; [exact Hd|]. apply IH. cbn [app] in Hd.
    cbn [desc] in Hd. destruct (pre ++ wlog m ops); [exact I|apply Hd]. }
  specialize (IH Hh Hs Hw Hn' Hd').
  pose proof (all_acked root size cap max handles rand name ops Hh Hs (Hn' name) (Hd' name)) as A1.
  pose proof (all_acked root size cap max handles rand name _ H Hs0 (Hn name) (Hd name)) as A2.
  pose proof (c_run_len ops (db_empty root size cap max handles rand)) as L.
  rewrite c_run_app in A2 |- *. destruct (c_run ops (db_empty root size cap max handles rand)) as [st outs]. cbn [snd] in *. cbn [c_run] in A2 |- *.
  destruct (c_step (OWrite name v) st) as [st' r]. cbn [snd]. apply Forall_app. split; [exact IH|]. constructor; [|constructor].
  rewrite acked_app in A2 by auto. rewrite wlog_app, A1 in A2. cbn [wlog_] in A2. rewrite beqb_refl in A2. cbn [acked_] in A2.
  assert (X : forall l : list value, l <> v :: l) by (intros l E; apply (f_equal (@length value)) in E; cbn [length] in E; lia).
  destruct r as [[[]| | |]| | |]; try (exfalso; eapply X; exact A2). reflexivity.
Qed.
Lemma desc_seq (f : nat -> value) : (forall i, v_end (f i) < v_end (f (S i))) -> forall k i, desc (rev (map f (seq i k))).
Proof.
  intros H. induction k as [|k IH]; intros i; [exact I|]. rewrite seq_S, map_app, rev_app_distr. cbn [map rev app]. specialize (IH i).
  destruct k as [|k]; [exact I|]. rewrite seq_S, map_app, rev_app_distr in IH |- *. cbn [map rev app] in *. cbn [desc]. split; [|exact IH].
  replace (i + S k)%nat with (S (i + k)) by lia. apply H.
Qed.
Lemma wlog_other p now draw : forall order m, ~ In m order -> wlog m (map written_as (flat_map (the_calls p now draw) order)) = [].
Proof.
  intros order m Hi. unfold wlog. rewrite wlog_flat, app_nil_r.
  replace (flat_map (to_metric m) (map written_as (flat_map (the_calls p now draw) order))) with (@nil value); [reflexivity|].
  induction order as [|m' order IH]; [reflexivity|]. cbn [flat_map]. rewrite map_app, flat_map_app, <- IH by (intros X; apply Hi; now right).
  rewrite app_nil_r. unfold the_calls. assert (E : beqb m' m = false) by (apply beqb_neq; intros ->; apply Hi; now left).
  induction (seq 0 100) as [|i l IHl]; [reflexivity|]. cbn [map flat_map]. unfold the_call at 1. cbn [written_as to_metric]. rewrite E. exact IHl.
Qed.
(** the calls on the database are well-formed writes *)
Lemma calls_ok p size cap now draw order : opts_ok size cap -> roomy p size cap -> now_ok now -> draw_ok draw ->
  ops_ok size cap (map written_as (flat_map (the_calls p now draw) order)).
Proof.
  intros Ho Hr Hn Hd. assert (K : forall l, (forall c, In c l -> exists m i, (i < 100)%nat /\ c = the_call p now draw m i) -> ops_ok size cap (map written_as l)).
  { induction l as [|c l IH]; intros H; [exact I|]. destruct (H c (or_introl eq_refl)) as (m & i & Hi & ->). cbn [map]. pose proof (demo_good p size cap now draw m i Ho Hr Hn Hd Hi) as G.
    unfold the_call in *. cbn [written_as ops_ok]. destruct G as (_ & G1 & G2 & _). split; [split; [exact G1|lia]|]. apply IH. intros c Hc. apply H. now right. }
  apply K. intros c Hc. apply in_flat_map in Hc as (m & _ & Hc). apply in_map_iff in Hc as (i & <- & Hi). apply in_seq in Hi. exists m, i. split; [lia|reflexivity].
Qed.
Lemma calls_writes l : Forall (fun o => is_write o = true) (map written_as l) /\ (forall size cap max, same_options size cap max (map written_as l)).
Proof. induction l as [|[[[a b] c] d] l [A B]]; split; cbn; auto. Qed.
Lemma calls_len p now draw order : length (flat_map (the_calls p now draw) order) = (100 * length order)%nat.
Proof. induction order as [|m o IH]; [reflexivity|]. cbn [flat_map length]. rewrite app_length, IH. unfold the_calls. rewrite map_length, seq_length. lia. Qed.

Lemma unlimited_same size cap max ops : same_options size cap max ops -> max <= 0 -> unlimited max ops.
Proof.
  intros Hs Hmax. induction ops as [|o l IH]; cbn [unlimited]; [auto|]. split; [exact Hmax|]. destruct o; cbn [same_options] in Hs; auto. destruct Hs as (_ & _ & -> & Hs). auto.
Qed.
(** On an empty files database the command succeeds and everything it made can be
    queried: for each of the six metrics a query with a bound after [now] answers,
    newest first, with one record for each of the 100 pieces of the day -- all of them
    if the number of files is not limited, otherwise the newest -- and no other metric
    exists. *)
Theorem C71_database : forall root size cap max handles rand draw p now order,
  p_new p = true -> roomy p size cap -> root <> [] -> process_ok size cap handles rand ->
  now_ok now -> draw_ok draw -> Permutation order demo_names ->
  exists st calls, demo_all db db_queue draw p now order (db_empty root size cap max handles rand) = Some (DemoDone, st, calls) /\
  (forall m, In m demo_names ->
    exists kept, (1 <= kept <= 100)%nat /\ (max <= 0 -> kept = 100%nat) /\
    forall e, now < e -> exists st' vs, c_step (OQuery m e) st = (st', RQuery vs (Ok tt)) /\
      Forall2 (fun v x => v_start v = win_start x /\ v_end v = win_end x /\ tells p x (v_data v)) vs (firstn kept (rev (pieces now (draw m))))).
Proof.
  intros root size cap max handles rand draw p now order Hp Hr Hroot Hproc Hn Hd Perm.
  set (calls := flat_map (the_calls p now draw) order). set (ops := map written_as calls). set (st0 := db_empty root size cap max handles rand).
  assert (Lo : length order = 6%nat) by (rewrite (Permutation_length Perm); reflexivity).
  assert (Nd : NoDup order) by (eapply Permutation_NoDup; [apply Permutation_sym; exact Perm|apply names_nodup]).
  assert (Hh : history_ok root size cap handles rand ops).
  { split; [exact Hroot|]. split; [exact Hproc|]. split; [apply calls_ok; auto; apply Hproc|]. unfold ops, calls. rewrite map_length, calls_len, Lo. cbn. lia. }
  destruct (calls_writes calls) as [Hw Hs]. specialize (Hs size cap max).
  assert (Hin : forall m v, In v (wlog m ops) -> In m order /\ exists i, (i < 100)%nat /\ v = let '(_, t0, t1, data) := the_call p now draw m i in Val t0 t1 data).
  { intros m v Hv. destruct (in_dec (list_eq_dec Z.eq_dec) m order) as [I|I]; [|unfold ops, calls in Hv; rewrite wlog_other in Hv by exact I; destruct Hv].
    split; [exact I|]. unfold ops, calls in Hv. rewrite wlog_calls in Hv by assumption. apply in_rev in Hv. apply in_map_iff in Hv as (i & <- & Hi). apply in_seq in Hi. exists i. split; [lia|reflexivity]. }
  assert (Hnr : forall m v, In v (wlog m ops) -> nrec size v < cap).
  { intros m v Hv. destruct (Hin m v Hv) as (_ & i & Hi & ->). pose proof (demo_good p size cap now draw m i (proj1 Hproc) Hr Hn Hd Hi) as G. unfold the_call in *. apply G. }
  assert (Hdesc : forall m, desc (wlog m ops)).
  { intros m. destruct (in_dec (list_eq_dec Z.eq_dec) m order) as [I|I]; unfold ops, calls; [|rewrite wlog_other by exact I; exact Logic.I].
    rewrite wlog_calls by assumption. apply (desc_seq (fun i => let '(_, t0, t1, data) := the_call p now draw m i in Val t0 t1 data)). intros i. cbn [the_call v_end]. lia. }
  pose proof (all_true root size cap max handles rand ops Hh Hs Hw Hnr Hdesc) as T. fold st0 in T.
  destruct (answers_run calls st0) as [R1 R2]. fold ops in R1, R2.
  exists (fst (c_run ops st0)), calls. split.
  - rewrite <- R1. apply all_accepted; [exact Hp|]. fold calls. rewrite R2. clear - T. induction T as [|r l -> _ IH]; cbn [map]; constructor; auto. exists true. reflexivity.
  - intros m Hm. assert (I : In m order) by (eapply Permutation_in; [apply Permutation_sym; exact Perm|exact Hm]).
    pose proof (all_acked root size cap max handles rand m ops Hh Hs (Hnr m) (Hdesc m)) as A.
    pose proof (C12_full_queries_are_exact root size cap max handles rand ops m Hh) as Q. fold st0 in A, Q.
    destruct (c_run ops st0) as [st outs]. cbn [fst]. cbn zeta in Q. rewrite A in Q.
    assert (E : wlog m ops = rev (map (fun i => let '(_, t0, t1, data) := the_call p now draw m i in Val t0 t1 data) (seq 0 100))) by (unfold ops, calls; apply wlog_calls; assumption).
    assert (LL : length (wlog m ops) = 100%nat) by (rewrite E, rev_length, map_length, seq_length; reflexivity).
    destruct Q as (kept & K1 & K2 & K3). { intros E0. rewrite E0 in LL. discriminate. }
    exists kept. rewrite LL in *. split; [exact K1|]. split.
    { intros Hmax. apply K2. exact (unlimited_same size cap max ops Hs Hmax). }
    intros e He. destruct (K3 e) as (st' & Eq).
    { intros v Hv. destruct (Hin m v Hv) as (_ & i & Hi & ->). cbn [the_call v_end]. lia. }
    exists st', (firstn kept (wlog m ops)). split; [exact Eq|]. rewrite E.
    assert (F : Forall2 (fun v x => v_start v = win_start x /\ v_end v = win_end x /\ tells p x (v_data v))
      (rev (map (fun i => let '(_, t0, t1, data) := the_call p now draw m i in Val t0 t1 data) (seq 0 100))) (rev (pieces now (draw m)))).
    { unfold pieces. rewrite <- !map_rev. assert (B : forall l, (forall i, In i l -> (i < 100)%nat) -> Forall2 (fun v x => v_start v = win_start x /\ v_end v = win_end x /\ tells p x (v_data v))
        (map (fun i => let '(_, t0, t1, data) := the_call p now draw m i in Val t0 t1 data) l) (map (fun i => piece now (draw m i) i) l)).
      { induction l as [|i l IH]; intros Hl; cbn [map]; constructor; [|apply IH; intros j Hj; apply Hl; now right].
        pose proof (demo_good p size cap now draw m i (proj1 Hproc) Hr Hn Hd (Hl i (or_introl eq_refl))) as G. unfold the_call in *. apply G. }
      apply B. intros i Hi. apply in_rev in Hi. apply in_seq in Hi. lia. }
    clear - F. revert kept. induction F; intros [|k]; cbn [firstn]; constructor; auto.
Qed.
Print Assumptions C71_database.

(** Success does not mean that anything was stored: on a database whose demo metrics
    have newer values (a second demo run with an older clock, say) every record is
    refused, the answers are all "not written", and the command still succeeds. *)
Theorem C71_unwritten_refuted : forall root size cap max handles rand ops draw p now order,
  p_new p = true -> roomy p size cap -> history_ok root size cap handles rand ops -> same_options size cap max ops -> Z.of_nat (length ops) + 600 < 2 ^ 61 ->
  now_ok now -> draw_ok draw -> Permutation order demo_names ->
  let '(st, outs) := c_run ops (db_empty root size cap max handles rand) in
  (forall m, In m demo_names -> exists w rest, acked m ops outs = w :: rest /\ now <= v_end w) ->
  exists st' calls, demo_all db db_queue draw p now order st = Some (DemoDone, st', calls) /\ length calls = 600%nat /\
    snd (c_run (map written_as calls) st) = repeat (RWrite (Ok false)) 600.
Proof.
  intros root size cap max handles rand ops draw p now order Hp Hr Hh Hs Hlen Hn Hd Perm.
  set (st0 := db_empty root size cap max handles rand). destruct (c_run ops st0) as [st outs] eqn:E0. intros Hnew.
  set (calls := flat_map (the_calls p now draw) order).
  assert (Lo : length order = 6%nat) by (rewrite (Permutation_length Perm); reflexivity).
  assert (Lc : length calls = 600%nat) by (unfold calls; rewrite calls_len, Lo; reflexivity).
  destruct Hh as (H1 & H2 & H3 & H4).
  assert (K : forall l pre, (forall c, In c (pre ++ l) -> exists m i, In m demo_names /\ (i < 100)%nat /\ c = the_call p now draw m i) -> (length (pre ++ l) <= 600)%nat ->
     snd (c_run (map written_as pre) st) = repeat (RWrite (Ok false)) (length pre) ->
     snd (c_run (map written_as (pre ++ l)) st) = repeat (RWrite (Ok false)) (length (pre ++ l))).
  { induction l as [|c l IH]; intros pre Hc Hl Hpre; [now rewrite app_nil_r|].
    replace (pre ++ c :: l) with ((pre ++ [c]) ++ l) in * by (rewrite <- app_assoc; reflexivity). apply IH; [exact Hc|exact Hl|].
    destruct (Hc c) as (m & i & Hm & Hi & ->); [apply in_or_app; left; apply in_or_app; right; now left|].
    assert (OK : ops_ok size cap (map written_as (pre ++ [the_call p now draw m i]))).
    { assert (Q : forall q, (forall c, In c q -> exists m i, (i < 100)%nat /\ c = the_call p now draw m i) -> ops_ok size cap (map written_as q)).
      { induction q as [|c q IHq]; intros Hq; [exact I|]. destruct (Hq c (or_introl eq_refl)) as (m' & i' & Hi' & ->). cbn [map]. pose proof (demo_good p size cap now draw m' i' (proj1 H2) Hr Hn Hd Hi') as G.
        unfold the_call in *. cbn [written_as ops_ok]. destruct G as (_ & G1 & G2 & _). split; [split; [exact G1|lia]|]. apply IHq. intros c Hc'. apply Hq. now right. }
      apply Q. intros c Hc'. destruct (Hc c) as (m' & i' & _ & X); [apply in_or_app; now left|eauto]. }
    rewrite map_app in OK. cbn [map] in OK.
    set (v := let '(_, t0, t1, data) := the_call p now draw m i in Val t0 t1 data).
    assert (Ev : written_as (the_call p now draw m i) = OWrite m v) by reflexivity.
    assert (Hfull : history_ok root size cap handles rand ((ops ++ map written_as pre) ++ OWrite m v :: [])).
    { split; [exact H1|]. split; [exact H2|]. split.
      - rewrite <- app_assoc. apply (ops_ok_app size cap max); [exact Hs|]. split; [exact H3|]. rewrite <- Ev. exact OK.
      - rewrite !app_length, map_length. cbn [length]. rewrite !app_length in Hl. cbn [length] in Hl. lia. }
    pose proof (C14_old_writes_refused_without_effect root size cap max handles rand (ops ++ map written_as pre) m v) as C. fold st0 in C.
    destruct (Hnew m Hm) as (w & rest & Ea & Hw). specialize (C w rest [] Hfull).
    pose proof (c_run_len ops st0) as Lr. rewrite E0 in Lr. cbn [snd] in Lr.
    rewrite !c_run_app, E0 in C. rewrite map_app. cbn [map]. rewrite c_run_app, Ev. 
    destruct (c_run (map written_as pre) st) as [st1 r1]. cbn [snd] in Hpre. subst r1. cbn [c_run] in C |- *. destruct (c_step (OWrite m v) st1) as [st2 r]. cbn [snd] in *.
    assert (Ak : acked m (ops ++ map written_as pre) (outs ++ repeat (RWrite (Ok false)) (length pre)) = w :: rest).
    { rewrite acked_app by auto. rewrite Ea. clear. generalize (w :: rest) as log. induction pre as [|[[[a b] c] d] pre IH]; intros log; [reflexivity|]. cbn [map length repeat written_as acked_]. apply IH. }
    specialize (C Ak). destruct C as (an & C1 & C2).
    { unfold v, the_call. cbn [v_end]. lia. }
    rewrite app_nil_r in C1. rewrite app_length. cbn [length]. rewrite Nat.add_1_r. cbn [repeat]. rewrite repeat_cons. f_equal.
    assert (an = []).
    { apply (f_equal (@length outcome)) in C1. rewrite !app_length in C1. destruct an; [reflexivity|cbn [length] in C1; lia]. }
    subst an. apply app_inv_head in C2. injection C2 as ->. reflexivity. }
  assert (Hc : forall c, In c ([] ++ calls) -> exists m i, In m demo_names /\ (i < 100)%nat /\ c = the_call p now draw m i).
  { intros c Hc. cbn [app] in Hc. apply in_flat_map in Hc as (m & Hm & Hc). apply in_map_iff in Hc as (i & <- & Hi). apply in_seq in Hi. exists m, i. split; [eapply Permutation_in; eauto|split; [lia|reflexivity]]. }
  specialize (K calls [] Hc ltac:(cbn [app]; lia) eq_refl). cbn [app] in K. rewrite Lc in K.
  destruct (answers_run calls st) as [R1 R2]. rewrite K in R2.
  exists (snd (answers db_queue calls st)), calls. split; [|split; [exact Lc|exact K]].
  apply all_accepted; [exact Hp|]. fold calls. rewrite R2. clear. generalize 600%nat as k. induction k as [|k IH]; cbn [repeat map]; constructor; auto. exists false. reflexivity.
Qed.
Print Assumptions C71_unwritten_refuted.

(** A callback called inside Queue (a full queue with drop = true) stops the command
    for ever. *)
Theorem C71_drop_refuted : forall S (queue : S -> list Z * Z * Z * list Z -> qres * S) draw p now m order s,
  p_new p = true -> (forall call, fst (queue s call) = Stuck) ->
  exists s' calls, demo_all S queue draw p now (m :: order) s = Some (DemoHangs, s', calls).
Proof.
  intros S queue draw p now m order s Hp Hq. cbn [demo_all demo_loop]. rewrite delta_eq.
  replace (demo_start now <? now) with true by (symmetry; apply Z.ltb_lt; unfold demo_start, duration; lia). rewrite Hp. cbn [negb].
  match goal with |- context [queue s ?c] => specialize (Hq c); destruct (queue s c) as [q s1] end. cbn [fst] in Hq. subst q. eauto.
Qed.
Print Assumptions C71_drop_refuted.

(** What the result of a demo run means: success only if every Queue call was
    taken and called back without an error; failure because of the first call that
    was refused or called back with an error (or because no distribution could be
    made); and it hangs at a call whose callback never comes. *)
Definition outcome_of (p : params) (qs : list qres) (r : dend) : Prop :=
  match r with
  | DemoDone => Forall accepted qs
  | DemoFailed => (p_new p = false /\ Forall accepted qs) \/
      exists qs1 q, qs = qs1 ++ [q] /\ Forall accepted qs1 /\ (q = Refused \/ exists w, q = Later w true)
  | DemoHangs => exists qs1, qs = qs1 ++ [Stuck] /\ Forall accepted qs1
  end.
Lemma outcome_app p qs1 qs2 r : Forall accepted qs1 -> outcome_of p qs2 r -> outcome_of p (qs1 ++ qs2) r.
Proof.
  intros H. destruct r; cbn [outcome_of].
  - intros H2. now apply Forall_app.
  - intros [(Hp & H2)|(x & q & -> & Hx & Hq)].
    + left. split; [exact Hp|]. now apply Forall_app.
    + right. exists (qs1 ++ x), q. split; [apply app_assoc|]. split; [now apply Forall_app|exact Hq].
  - intros (x & -> & Hx). exists (qs1 ++ x). split; [apply app_assoc|now apply Forall_app].
Qed.
Lemma loop_outcome S queue draw p now delta m : forall fuel t0 t1 i (s : S) r s' calls,
  demo_loop S queue draw p fuel now delta m t0 t1 i s = Some (r, s', calls) ->
  snd (answers queue calls s) = s' /\ outcome_of p (fst (answers queue calls s)) r.
Proof.
  induction fuel as [|fuel IH]; intros t0 t1 i s r s' calls; cbn [demo_loop]; [discriminate|].
  destruct (negb (t0 <? now)); [intros [= <- <- <-]; split; [reflexivity|constructor]|].
  destruct (negb (p_new p)) eqn:Ep.
  { intros [= <- <- <-]. split; [reflexivity|]. left. split; [now apply negb_true_iff|constructor]. }
  set (call := (m, t0, t1, _)). destruct (queue s call) as [q s1] eqn:Eq.
  destruct q as [w [|]| |].
  - intros [= <- <- <-]. cbn [answers]. rewrite Eq. split; [reflexivity|]. right. exists [], (Later w true).
    split; [reflexivity|]. split; [constructor|]. right. now exists w.
  - destruct (demo_loop S queue draw p fuel now delta m t1 (t1 + delta) (Datatypes.S i) s1) as [[[r1 s2] calls1]|] eqn:El; [|discriminate].
    intros [= <- <- <-]. destruct (IH _ _ _ _ _ _ _ El) as (H1 & H2). cbn [answers]. rewrite Eq.
    destruct (answers queue calls1 s1) as [qs s3]. cbn [fst snd] in *. split; [exact H1|].
    apply (outcome_app p [Later w false] qs); [|exact H2]. constructor; [now exists w|constructor].
  - intros [= <- <- <-]. cbn [answers]. rewrite Eq. split; [reflexivity|]. exists []. split; [reflexivity|constructor].
  - intros [= <- <- <-]. cbn [answers]. rewrite Eq. split; [reflexivity|]. right. exists [], Refused.
    split; [reflexivity|]. split; [constructor|now left].
Qed.
Theorem C71_outcome : forall S (queue : S -> list Z * Z * Z * list Z -> qres * S) draw p now order s r s' calls,
  demo_all S queue draw p now order s = Some (r, s', calls) ->
  snd (answers queue calls s) = s' /\ outcome_of p (fst (answers queue calls s)) r.
Proof.
  intros S queue draw p now. induction order as [|m order IH]; intros s r s' calls; cbn [demo_all].
  - intros [= <- <- <-]. split; [reflexivity|constructor].
  - destruct (demo_loop S queue draw p 101 now (demo_delta now) m (demo_start now) (demo_start now + demo_delta now) 0 s)
      as [[[r1 s1] calls1]|] eqn:El; [|discriminate].
    destruct (loop_outcome _ _ _ _ _ _ _ _ _ _ _ _ _ _ _ El) as (H1 & H2).
    destruct r1; try (intros [= <- <- <-]; split; [exact H1|exact H2]).
    destruct (demo_all S queue draw p now order s1) as [[[r2 s2] calls2]|] eqn:Ea; [|discriminate].
    intros [= <- <- <-]. destruct (IH _ _ _ _ Ea) as (I1 & I2). rewrite answers_app.
    destruct (answers queue calls1 s) as [q1 s1']. cbn [fst snd] in *. subst s1'.
    destruct (answers queue calls2 s1) as [q2 s2']. cbn [fst snd] in *. split; [exact I1|]. now apply outcome_app.
Qed.
Print Assumptions C71_outcome.
Example C71_outcome_failed : exists r s' calls,
  demo_all nat (fun n call => (if Nat.eqb n 2 then Later false true else Later true false, Datatypes.S n)) (fun _ _ => []) (Params [] true (fun _ => []))
    (10 ^ 18) [[1]; [2]] 0%nat = Some (r, s', calls) /\ r = DemoFailed /\ s' = 3%nat /\ length calls = 3%nat.
Proof. eexists _, _, _. vm_compute. repeat split. Qed.

(** ** Examples *)
Definition ex_draw (m : list Z) (i : nat) : list Z := repeat 4607182418800017408 (300 + Nat.modulo i 300).
Definition ex_now : Z := 1534982400 * 10 ^ 9 + 7.
Definition ex_params : params := Params (bytes_of "tdigest") true (fun vs => map (fun v => v mod 256) (firstn 20 vs)).
Example C71_hypotheses : now_ok ex_now /\ draw_ok ex_draw /\ roomy ex_params 256 400 /\ p_new ex_params = true /\ opts_ok 256 400 /\ NoDup demo_names /\ length demo_names = 6%nat.
Proof.
  split; [|split; [|split; [|split; [|split; [|split; [apply names_nodup|reflexivity]]]]]].
  - unfold now_ok, ex_now. split; [lia|]. intros i Hi. lia.
  - intros m i. unfold ex_draw. split; [discriminate|]. split.
    + unfold len. rewrite repeat_length. pose proof (Nat.mod_upper_bound i 300 ltac:(lia)). lia.
    + apply Forall_forall. intros v Hv. apply repeat_spec in Hv. subst v. split; [unfold is_f64; lia|]. split; reflexivity.
  - split.
    + unfold is_bytes, ex_params, bytes_of. cbn. repeat constructor; unfold is_byte; lia.
    + intros vs. cbn [ex_params p_marshal p_kind]. split.
      * unfold is_bytes. apply Forall_forall. intros b Hb. apply in_map_iff in Hb as (x & <- & _). unfold is_byte. apply Z.mod_pos_bound. lia.
      * unfold len at 1. rewrite map_length. pose proof (firstn_le_length 20 vs). change (len (bytes_of "tdigest")) with 7. lia.
  - reflexivity.
  - unfold opts_ok. lia.
Qed.
(** the demo on an empty database with the options of the initial configuration *)
Example C71_example : exists st calls, demo_all db db_queue ex_draw ex_params ex_now demo_names (db_empty (bytes_of "data") 256 400 2 0 (fun _ => 0)) = Some (DemoDone, st, calls).
Proof.
  destruct C71_hypotheses as (H1 & H2 & H3 & H4 & H5 & _).
  destruct (C71_database (bytes_of "data") 256 400 2 0 (fun _ => 0) ex_draw ex_params ex_now demo_names H4 H3) as (st & calls & E & _); auto.
  - discriminate.
  - split; [exact H5|]. split; [lia|]. intros n. lia.
  - eauto.
Qed.
