(** Property C69: from the lines sent to the listener to the answers of the database. *)
From Coq Require Import ZArith List Lia Bool Permutation.
From Verif Require Import Base Maps Pb PbRecord Float Agg AggSpec Writer WriterSpec Dump Cache FileProofs Metric MetricSpec MetricFile DbSpec DbLog DbClient
  MergeSpec ServerSpec Graphite GraphiteSpec PipelineSpec Pipeline PipelineProofs Props_Data Props_Graphite Props_Storage Props_Conc.
Import ListNotations.
Open Scope Z_scope.

(** The events say for every metric which finished periods with values it has. *)
Theorem C69_periods_known :
  forall parse p size cap max ev w ops m,
  p_new p = true -> (forall x v, parse x = Some v -> is_f64 v) -> opts_ok size cap -> roomy p size cap ->
  Forall event_ok ev -> lines_of ev < 2 ^ 63 ->
  sys parse p size cap max ev w ops ->
  exists b log ws, told parse m ev b log ws.
Proof.
  intros parse p size cap max ev w ops m H1 H2 H3 H4 H5 H6 S.
  induction S as [|ev w ops clock lines ok w' S IH Hc|ev w ops now recs w' pool nbuf d writes skips errors more S IH St Np Hp Hd Em Ec El Pf
                 |ev w ops o S IH O1 O2|ev w ops handles rand S IH Pk].
  - exists None, [], []. constructor.
  - pose proof (Forall_inv H5) as E. pose proof (Forall_inv_tail H5) as H5'. cbn [lines_of] in H6. destruct (IH H5' ltac:(lia)) as (b & log & ws & T).
    destruct (sys_inv parse p size cap max H1 H2 H3 H4 ev w ops S H5' ltac:(lia)) as (h & Hh & _).
    destruct (C54_connection parse p clock lines h w w' ok (proj1 E) Hh Hc) as (_ & adds & A & _). do 3 eexists. eapply told_lines; eauto.
  - pose proof (Forall_inv_tail H5) as H5'. cbn [lines_of] in H6. destruct (IH H5' ltac:(lia)) as (b & log & ws & T).
    destruct log as [|x log]; [do 3 eexists; eapply told_empty; eauto|].
    destruct (sys_inv parse p size cap max H1 H2 H3 H4 ev w ops S H5' ltac:(lia)) as (h & _ & Hok & _ & Ht & _).
    destruct (Ht _ _ _ _ T) as (Eb & Ep & _). destruct b as [b|].
    + do 3 eexists. eapply told_dump; eauto.
    + exfalso. apply (pending_boundary m h Hok); [rewrite Ep; discriminate|exact Eb].
  - apply IH; assumption.
  - pose proof (Forall_inv_tail H5) as H5'. cbn [lines_of] in H6. destruct (IH H5' ltac:(lia)) as (b & log & ws & T). do 3 eexists. eapply told_restart; eauto.
Qed.

(** Everything dumped is answered: after any sequence of connections, dumps, restarts
    and queries, a query of a metric with a bound after its newest period answers,
    newest first, with exactly one value for each finished period in which the metric
    received values -- all of them if the number of files is not limited, otherwise the
    newest -- whose bytes tell the period's bounds, the number of its values, a smallest
    and a largest value and their distribution. *)
Theorem C69_queries_tell_what_was_received :
  forall parse p root size cap max handles rand ev w ops m b log ws,
  p_new p = true -> (forall x v, parse x = Some v -> is_f64 v) -> roomy p size cap ->
  root <> [] -> process_ok size cap handles rand ->
  Forall event_ok ev -> dumps_increase ev -> lines_of ev < 2 ^ 63 -> Z.of_nat (length ops) < 2 ^ 61 ->
  sys parse p size cap max ev w ops -> told parse m ev b log ws ->
  let '(st, _) := c_run ops (db_empty root size cap max handles rand) in
  ws <> [] ->
  exists kept, (1 <= kept <= length ws)%nat /\ (max <= 0 -> kept = length ws) /\
  forall e, (forall x, In x ws -> win_end x < e) ->
  exists st' vs, c_step (OQuery m e) st = (st', RQuery vs (Ok tt)) /\
    Forall2 (fun v x => v_start v = win_start x /\ v_end v = win_end x /\ tells p x (v_data v)) vs (firstn kept ws).
Proof.
  intros parse p root size cap max handles rand ev w ops m b log ws H1 H2 H3 Hr Hp He Hi Hl Ho S T.
  pose proof (proj1 Hp) as Hopt.
  destruct (sys_inv parse p size cap max H1 H2 Hopt H3 ev w ops S He Hl) as (h & _ & _ & _ & Ht & Hs & Hok & Hn).
  destruct (Ht _ _ _ _ T) as (_ & _ & F). assert (Hd : desc (wlog m ops)) by (eapply told_desc; eauto).
  assert (H : history_ok root size cap handles rand ops) by (split; [exact Hr|split; [exact Hp|split; [exact Hok|exact Ho]]]).
  pose proof (all_acked root size cap max handles rand m ops H Hs (Hn m) Hd) as A.
  pose proof (C12_full_queries_are_exact root size cap max handles rand ops m H) as Q.
  destruct (c_run ops (db_empty root size cap max handles rand)) as [st outs]. cbn zeta in Q. rewrite A in Q. intros Hw.
  assert (L : length (wlog m ops) = length ws) by (clear - F; induction F; cbn; auto).
  destruct Q as (kept & K1 & K2 & K3). { intros E. rewrite E in F. inversion F; subst. contradiction. }
  exists kept. rewrite L in *. split; [exact K1|]. split.
  { intros Hm. apply K2. clear - Hs Hm. induction ops as [|o ops IH]; cbn [unlimited]; [auto|]. split; [exact Hm|].
    destruct o; cbn [same_options] in Hs; auto. destruct Hs as (_ & _ & -> & Hs). auto. }
  intros e Hlate. destruct (K3 e) as (st' & E).
  { intros v Hv. clear - F Hv Hlate. induction F as [|x y l l' R F IH]; [destruct Hv|]. destruct Hv as [<-|Hv].
    - destruct R as (_ & -> & _). apply Hlate. now left.
    - apply IH; [intros z Hz; apply Hlate; now right|exact Hv]. }
  exists st', (firstn kept (wlog m ops)). split; [exact E|].
  clear - F. revert kept. induction F; intros [|k]; cbn [firstn]; constructor; auto.
Qed.

(** The newest period of a metric is what QueryLatest answers. *)
Theorem C69_latest :
  forall parse p root size cap max handles rand ev w ops m b log x ws,
  p_new p = true -> (forall x v, parse x = Some v -> is_f64 v) -> roomy p size cap ->
  root <> [] -> process_ok size cap handles rand ->
  Forall event_ok ev -> dumps_increase ev -> lines_of ev < 2 ^ 63 -> Z.of_nat (length ops) < 2 ^ 61 ->
  sys parse p size cap max ev w ops -> told parse m ev b log (x :: ws) -> win_end x < 2 ^ 63 - 1 ->
  let '(st, _) := c_run ops (db_empty root size cap max handles rand) in
  exists st' v, c_step (OLatest m) st = (st', RLatest (Some v) (Ok tt)) /\
    v_start v = win_start x /\ v_end v = win_end x /\ tells p x (v_data v).
Proof.
  intros parse p root size cap max handles rand ev w ops m b log x ws H1 H2 H3 Hr Hp He Hi Hl Ho S T Hx.
  pose proof (proj1 Hp) as Hopt.
  destruct (sys_inv parse p size cap max H1 H2 Hopt H3 ev w ops S He Hl) as (h & _ & _ & _ & Ht & Hs & Hok & Hn).
  destruct (Ht _ _ _ _ T) as (_ & _ & F). assert (Hd : desc (wlog m ops)) by (eapply told_desc; eauto).
  assert (H : history_ok root size cap handles rand ops) by (split; [exact Hr|split; [exact Hp|split; [exact Hok|exact Ho]]]).
  pose proof (all_acked root size cap max handles rand m ops H Hs (Hn m) Hd) as A.
  pose proof (fun v rest => C13_latest_is_newest_acknowledged_partial root size cap max handles rand ops m v rest H) as Q.
  destruct (c_run ops (db_empty root size cap max handles rand)) as [st outs]. cbn zeta in Q. rewrite A in Q.
  inversion F as [|v ? vs ? (S1 & S2 & S3) F' Ev]; subst. destruct (Q v vs) as (st' & E); [symmetry; assumption|lia|].
  exists st', v. auto.
Qed.

(** Such runs exist: a connection is always handled, and a dump can be made at any
    time (the database answering each write). *)
Lemma dump_ends recs : exists d writes skips errors,
  d_reach recs [] 0 d /\ m_main d = DDone writes skips errors /\ m_cancelled d = false /\ length (m_calls d) = length recs.
Proof.
  assert (SL : forall c l i, length (@set_nth dcall i c l) = length l).
  { intros c l. induction l as [|y l IHl]; intros [|i]; cbn; auto. }
  assert (SS : forall c l i y, nth_error l i = Some y -> nth_error (@set_nth dcall i c l) i = Some c).
  { intros c l. induction l as [|y l IHl]; intros [|i] z; cbn; try discriminate; eauto. }
  assert (Q : forall todo s, d_reach recs [] 0 s -> m_main s = DIter todo -> m_cancelled s = false -> m_wg s = 0 ->
     exists d, d_reach recs [] 0 d /\ m_main d = DIter [] /\ m_cancelled d = false /\ m_wg d = 0 /\ length (m_calls d) = (length (m_calls s) + length todo)%nat).
  { induction todo as [|mr todo IH]; intros s R M C W; [exists s; rewrite Nat.add_0_r; auto|].
    pose proof (d_reach_step _ _ _ _ _ R (ds_queue s mr todo _ _ _ M (dg_new _ _))) as R1.
    match type of R1 with d_reach _ _ _ ?s1 => assert (X : nth_error (m_calls s1) (length (m_calls s)) = Some (DPending (m_nbuf s))) end.
    { cbn [m_calls]. rewrite nth_error_app2, Nat.sub_diag by lia. reflexivity. }
    pose proof (d_reach_step _ _ _ _ _ R1 (ds_count _ _ _ true false X)) as R2.
    pose proof (SS (DCounted (m_nbuf s) true false) _ _ _ X) as X2.
    match type of R2 with d_reach _ _ _ ?s2 => change (nth_error (m_calls s2) (length (m_calls s)) = Some (DCounted (m_nbuf s) true false)) in X2 end.
    pose proof (d_reach_step _ _ _ _ _ R2 (ds_done _ _ _ _ _ X2)) as R3.
    destruct (IH _ R3) as (d & Rd & Md & Cd & Wd & Ld); cbn [m_main m_cancelled m_wg]; auto; [lia|].
    exists d. split; [exact Rd|]. split; [exact Md|]. split; [exact Cd|]. split; [exact Wd|]. rewrite Ld. cbn [m_calls].
    rewrite !SL, app_length. cbn [length]. lia. }
  destruct (Q recs (d_begin recs [] 0) (d_reach_init _ _ _) eq_refl eq_refl eq_refl) as (d & R & M & C & W & L).
  pose proof (d_reach_step _ _ _ _ _ R (ds_iterated _ M)) as R1.
  match type of R1 with d_reach _ _ _ ?s1 => pose proof (d_reach_step _ _ _ _ _ R1 (ds_wait s1 eq_refl W)) as R2 end. do 4 eexists. split; [exact R2|]. split; [reflexivity|]. split; [exact C|exact L].
Qed.
Theorem C69_runs :
  forall parse p size cap max ev w ops,
  p_new p = true -> (forall x v, parse x = Some v -> is_f64 v) -> opts_ok size cap -> roomy p size cap ->
  Forall event_ok ev -> sys parse p size cap max ev w ops ->
  (forall clock lines, event_ok (Connection clock lines) -> lines_of ev + Z.of_nat (length lines) < 2 ^ 63 - 1 ->
     exists w', sys parse p size cap max (Connection clock lines :: ev) w' ops) /\
  (forall now, event_ok (Dumped now) -> lines_of ev < 2 ^ 63 - 1 -> exists w' more, sys parse p size cap max (Dumped now :: ev) w' (ops ++ more)).
Proof.
  intros parse p size cap max ev w ops H1 H2 H3 H4 He S. split.
  - intros clock lines [Ep Ec] Hl. destruct (sys_inv parse p size cap max H1 H2 H3 H4 ev w ops S He ltac:(lia)) as (h & Hh & Hok & Hlen & _).
    assert (X : exists w', handle_conn parse p clock (sent lines) w = Ok (true, w')).
    { unfold handle_conn. rewrite <- (app_nil_r (sent lines)), (scan_sent lines Ep []). cbn [scan scan_ fst snd].
      change (max_line <=? 0) with false. cbn match. cbn [fst snd]. rewrite app_nil_r.
      assert (Y : forall l i h w, w_hist p h w -> Forall wevent_ok h -> Z.of_nat (length h) + Z.of_nat (length l) + 1 < 2 ^ 63 ->
         exists w', handle_lines parse p clock i l w = Ok w').
      { clear - H1 H2 Ec. induction l as [|line l IH]; intros i h w Hh Hok Hlen; cbn [handle_lines]; [eauto|]. cbn [length] in Hlen.
        destruct (C44_returns parse p (clock i) line h w H1 Hh (ok_floats _ Hok) ltac:(lia) H2) as (ok & w1 & E). rewrite E. cbn [bind snd].
        destruct (C44_effect parse p (clock i) line h w w1 ok Hh E) as [F1 F2]. destruct ok.
        - destruct (F1 eq_refl) as (m & v & (x & r & _ & Px) & Hh' & _). apply (IH (Datatypes.S i) (h ++ [EAdd (clock i) m v []]) w1 Hh').
          + apply Forall_app. split; [exact Hok|]. constructor; [|constructor]. cbn [wevent_ok]. split; [apply Ec|]. split; [exact (H2 _ _ Px)|reflexivity].
          + rewrite app_length. cbn [length]. lia.
        - rewrite (F2 eq_refl). apply (IH (Datatypes.S i) h w Hh Hok). lia. }
      destruct (Y (map fst lines) 0%nat h w Hh Hok) as (w' & ->); [rewrite map_length; lia|]. cbn [bind]. eauto. }
    destruct X as (w' & E). exists w'. eapply sys_connection; eauto.
  - intros now En Hl. destruct (sys_inv parse p size cap max H1 H2 H3 H4 ev w ops S He ltac:(lia)) as (h & Hh & Hok & Hlen & _).
    destruct (C35_calls_return_partial p h w H1 Hh (ok_floats _ Hok) ltac:(lia)) as [_ R].
    destruct (R now (w_entries w) (w_entries w) true) as (recs & St & _); [split; [apply Permutation_refl|reflexivity]|].
    destruct (dump_ends recs) as (d & wr & sk & er & D1 & D2 & D3 & D4).
    exists (w_capture now w), (map written_as (m_queued d)). eapply sys_dump; eauto; [constructor|intros b []|].
    split.
    + assert (X : forall q, filter is_write (map written_as q) = map written_as q).
      { induction q as [|[[[a b] c] e] q IH]; [reflexivity|]. cbn [map filter written_as is_write]. now rewrite IH. }
      rewrite X. apply Permutation_refl.
    + induction (m_queued d) as [|[[[a b] c] e] q IH]; [reflexivity|]. cbn [map filter written_as is_reopen]. exact IH.
Qed.
Print Assumptions C69_periods_known.
Print Assumptions C69_queries_tell_what_was_received.
Print Assumptions C69_latest.
Print Assumptions C69_runs.

(** ** what a render request sees *)
(** the database of a process as the API sees it *)
Definition asked_of (st : db) (m : list Z) (t : Z) : list (Z * Z * list Z) * bool :=
  match snd (c_step (OQuery m t) st) with
  | RQuery vs r => (map (fun v => (v_start v, v_end v, v_data v)) vs, match r with Ok _ => false | _ => true end)
  | _ => ([], true)
  end.
Lemma upto_prefix t l : upto t l = firstn (length (upto t l)) l.
Proof. induction l as [|x l IH]; [reflexivity|]. cbn [upto]. destruct (snd (fst x) <? t); cbn [length firstn]; [reflexivity|]. f_equal. exact IH. Qed.
Lemma Forall2_firstn {A B} (R : A -> B -> Prop) l l' : Forall2 R l l' -> forall k, Forall2 R (firstn k l) (firstn k l').
Proof. induction 1; intros [|k]; cbn [firstn]; constructor; auto. Qed.
(** A render request at [t] over the last [dur], after the events: the handler decodes
    the records of the newest periods, newest first, among them (if the number of files
    is not limited) all that end in the time shown; each is the record of its period.
    These are the [newest :: drecs] of C68's pictures. *)
Theorem C69_render_input :
  forall parse p root size cap max handles rand ev w ops m b log ws t dur,
  p_new p = true -> (forall x v, parse x = Some v -> is_f64 v) -> roomy p size cap ->
  root <> [] -> process_ok size cap handles rand ->
  Forall event_ok ev -> dumps_increase ev -> lines_of ev < 2 ^ 63 -> Z.of_nat (length ops) < 2 ^ 61 ->
  sys parse p size cap max ev w ops -> told parse m ev b log ws ->
  ws <> [] -> (forall x, In x ws -> win_end x < t) ->
  let '(st, _) := c_run ops (db_empty root size cap max handles rand) in
  exists first rest newest drecs k, asked_of st m t = (first :: rest, false) /\
    Forall2 holds_record (upto (t - dur) (first :: rest)) (newest :: drecs) /\ newest_first (newest :: drecs) /\
    Forall2 (fun rec x => exists r, same_record rec r /\ describes p (win_start x) (win_end x) (win_log x) r) (newest :: drecs) (firstn k ws) /\
    (max <= 0 -> forall x, In x ws -> t - dur <= win_end x -> In x (firstn k ws)).
Proof.
  intros parse p root size cap max handles rand ev w ops m b log ws t dur H1 H2 H3 Hr Hp He Hi Hl Ho S T Hw Ht.
  pose proof (C69_queries_tell_what_was_received parse p root size cap max handles rand ev w ops m b log ws H1 H2 H3 Hr Hp He Hi Hl Ho S T) as Q.
  destruct (c_run ops (db_empty root size cap max handles rand)) as [st outs]. destruct (Q Hw) as (kept & K1 & K2 & K3). destruct (K3 t Ht) as (st' & vs & E & F).
  assert (Hdesc : forall a b, (exists pre mid post, ws = pre ++ a :: mid ++ b :: post) -> win_end b < win_end a).
  { clear - T Hi. induction T; cbn [dumps_increase] in *; auto.
    - intros a c (pre & mid & post & X). destruct pre; discriminate.
    - destruct Hi. auto.
    - destruct Hi as [I1 I2]. intros a c (pre & mid & post & X). destruct pre as [|y pre]; cbn [app] in X.
      + injection X as <- X. pose proof (told_ends _ _ _ _ _ _ _ T I1) as Y. rewrite Forall_forall in Y. apply Y. rewrite X. apply in_or_app. right. now left.
      + injection X as _ X. apply IHT; [exact I2|eauto]. }
  set (trip := fun v : value => (v_start v, v_end v, v_data v)).
  assert (F2 : Forall2 (fun z x => snd (fst z) = win_end x /\ exists a r, holds_record z a /\ same_record a r /\ describes p (win_start x) (win_end x) (win_log x) r)
            (map trip vs) (firstn kept ws)).
  { clear - F. induction F as [|v x vs l (A & B & (a & r & C)) F IH]; [constructor|]. cbn [map]. constructor; [|exact IH].
    split; [exact B|]. exists a, r. exact C. }
  destruct (map trip vs) as [|first rest] eqn:Ez.
  { inversion F2. destruct ws; [contradiction|]. destruct kept; [lia|discriminate]. }
  set (n := length (upto (t - dur) (first :: rest))).
  assert (F3 : Forall2 (fun z x => snd (fst z) = win_end x /\ exists a r, holds_record z a /\ same_record a r /\ describes p (win_start x) (win_end x) (win_log x) r)
            (upto (t - dur) (first :: rest)) (firstn n (firstn kept ws))).
  { rewrite upto_prefix. fold n. apply Forall2_firstn, F2. }
  assert (X : exists recs, Forall2 holds_record (upto (t - dur) (first :: rest)) recs /\
     Forall2 (fun rec x => exists r, same_record rec r /\ describes p (win_start x) (win_end x) (win_log x) r) recs (firstn n (firstn kept ws))).
  { clear - F3. induction F3 as [|z x l l' (_ & a & r & A & B & C) F IH]; [exists []; split; constructor|].
    destruct IH as (recs & R1 & R2). exists (a :: recs). split; constructor; eauto. }
  destruct X as (recs & R1 & R2). destruct recs as [|newest drecs]; [inversion R1|].
  rewrite firstn_firstn in R2. exists first, rest, newest, drecs, (Nat.min n kept).
  split; [unfold asked_of; rewrite E; cbn [snd]; fold trip; rewrite Ez; reflexivity|].
  split; [exact R1|]. split; [|split; [exact R2|]].
  - clear - R2 Hdesc. remember (newest :: drecs) as recs eqn:Y. clear Y newest drecs.
    assert (Z : forall a b, (exists pre mid post, firstn (Nat.min n kept) ws = pre ++ a :: mid ++ b :: post) -> win_end b < win_end a).
    { intros a b (pre & mid & post & A). apply Hdesc. exists pre, mid, (post ++ skipn (Nat.min n kept) ws).
      rewrite <- (firstn_skipn (Nat.min n kept) ws) at 1. rewrite A. rewrite <- !app_assoc. cbn [app]. rewrite <- app_assoc. reflexivity. }
    clear Hdesc. revert Z. induction R2 as [|a x recs l (r & (_ & A & _) & (_ & D & _)) F IH]; intros Z; [exact I|]. cbn [newest_first]. split.
    + destruct F as [|a' x' recs l (r' & (_ & A' & _) & (_ & D' & _)) F]; [exact I|]. rewrite A, D, A', D'.
      apply Z.lt_le_incl, Z. exists [], [], l. reflexivity.
    + apply IH. intros y z (pre & mid & post & X). apply Z. exists (x :: pre), mid, post. cbn [app]. now rewrite X.
  - intros Hm x Hx Hin. specialize (K2 Hm). subst kept. rewrite firstn_all in *.
    assert (Y : forall l ws', Forall2 (fun z x => snd (fst z) = win_end x /\ exists a r, holds_record z a /\ same_record a r /\ describes p (win_start x) (win_end x) (win_log x) r) l ws' ->
       (forall a b, (exists pre mid post, ws' = pre ++ a :: mid ++ b :: post) -> win_end b < win_end a) -> In x ws' -> In x (firstn (length (upto (t - dur) l)) ws')).
    { clear - Hin. induction 1 as [|z y l l' (A & _) F IH]; intros D Hx; [exact Hx|]. cbn [upto]. destruct Hx as [<-|Hx].
      - destruct (snd (fst z) <? t - dur); cbn [length firstn]; now left.
      - destruct (Z.ltb_spec (snd (fst z)) (t - dur)).
        + exfalso. apply in_split in Hx. destruct Hx as (m1 & m2 & ->). assert (win_end x < win_end y); [|lia].
          apply D. exists [], m1, m2. reflexivity.
        + cbn [length firstn]. right. apply IH; [|exact Hx]. intros a b (pre & mid & post & ->). apply D. exists (y :: pre), mid, post. reflexivity. }
    replace (firstn (Nat.min n (length ws)) ws) with (firstn n ws); [apply (Y _ _ F2 Hdesc Hx)|].
    destruct (Nat.le_ge_cases n (length ws)); [now rewrite Nat.min_l|]. rewrite Nat.min_r by assumption. rewrite firstn_all. now apply firstn_all2.
Qed.
Print Assumptions C69_render_input.

(** ** an example *)
(** a distribution that remembers how many values it has seen *)
Definition count_params : params := Params [102] true (fun vs => [Z.of_nat (length vs) mod 256]).
Lemma count_roomy : roomy count_params 79 3.
Proof.
  split; [repeat constructor; unfold is_byte; lia|]. intros vs. cbn [count_params p_marshal p_kind].
  split; [|cbn; lia]. constructor; [|constructor]. unfold is_byte. pose proof (Z.mod_pos_bound (Z.of_nat (length vs)) 256 ltac:(lia)). lia.
Qed.
Lemma sys_dump_all parse p size cap max ev w ops now recs : sys parse p size cap max ev w ops -> w_range p now (w_entries w) = Ok recs ->
  sys parse p size cap max (Dumped now :: ev) (w_capture now w) (ops ++ map written_as (map d_args recs)).
Proof.
  intros S E. destruct (dump_ends recs) as (d & wr & sk & er & D1 & D2 & D3 & D4).
  destruct (C37_dump_accounting recs [] 0%nat d wr sk er ltac:(constructor) ltac:(intros b []) D1 D2 D3) as (Q & _).
  eapply sys_dump; eauto; [|constructor|intros b []|].
  - eapply ws_capture; [|exact E]. split; [apply Permutation_refl|reflexivity].
  - rewrite Q. change (map (fun mr => (fst mr, d_start (snd mr), d_end (snd mr), drec_marshal (snd mr))) recs) with (map d_args recs). split.
    + assert (X : forall q, filter is_write (map written_as q) = map written_as q).
      { induction q as [|[[[a b] c] e] q IH]; [reflexivity|]. cbn [map filter written_as is_write]. now rewrite IH. }
      rewrite X. apply Permutation_refl.
    + induction (map d_args recs) as [|[[[a b] c] e] q IH]; [reflexivity|]. cbn [map filter written_as is_reopen]. exact IH.
Qed.
(** "m 5 0", "m 6 0" (not a number for this parser), "n 5 0"; dump; "m 5 0" again,
    lost by a restart; both lines once more; dump *)
Definition ex_events : list event :=
  [Dumped 90; Connection (fun _ => 70) ex_lines; Connection (fun _ => 60) ex_lines; Restarted;
   Connection (fun _ => 30) ex_lines; Dumped 20; Connection (fun _ => 7) ex_lines].
Definition ex_ws : list window := [Window 60 90 [(f5, []); (f5, [])]; Window 7 20 [(f5, [])]].
Lemma ex_asked t : asked ex_parse (fun _ => t) 0 (map fst ex_lines) [EAdd t [109] f5 []; EAdd t [110] f5 []].
Proof.
  apply (as_good ex_parse (fun _ => t) 0 [109; 32; 53; 32; 48]).
  - exists [53], [48]. split; [|reflexivity]. split; [reflexivity|]. repeat split; intros H; repeat (destruct H as [H|H]; [discriminate|]); destruct H.
  - apply as_bad.
    + intros m v (x & r & T & P). apply split_three in T. vm_compute in T. injection T as <- <- <-. discriminate.
    + apply (as_good ex_parse (fun _ => t) 2 [110; 32; 53; 32; 48] [] [] [110] f5).
      { exists [53], [48]. split; [|reflexivity]. split; [reflexivity|]. repeat split; intros H; repeat (destruct H as [H|H]; [discriminate|]); destruct H. }
      constructor.
Qed.
Example C69_example :
  Forall event_ok ex_events /\ dumps_increase ex_events /\ lines_of ex_events < 2 ^ 63 /\
  told ex_parse [109] ex_events (Some 90) [] ex_ws /\
  exists w ops, sys ex_parse count_params 79 3 1 ex_events w ops /\ Z.of_nat (length ops) < 2 ^ 61 /\
    let '(st, outs) := c_run ops (db_empty ex_root 79 3 1 2 prng) in
    outs = [RWrite (Ok true); RWrite (Ok true); RReopen; RWrite (Ok true); RWrite (Ok true)] /\
    match snd (c_step (OQuery [109] 91) st) with
    | RQuery vs (Ok tt) => map (fun v => (v_start v, v_end v)) vs = [(60, 90); (7, 20)] /\
        map (fun v => match drec_unmarshal (v_data v) with Ok r => (d_obs r, d_min r, d_max r, d_dist r) | _ => (0, 0, 0, []) end) vs =
        [(2, f5, f5, [2]); (1, f5, f5, [1])]
    | _ => False
    end.
Proof.
  assert (PL : Forall (fun l : list Z * bool => proper_line (fst l)) ex_lines).
  { repeat constructor; try (cbn; lia); intros H; repeat (destruct H as [H|H]; [discriminate|]); destruct H. }
  split; [|split; [cbn; lia|split; [vm_compute; reflexivity|split]]].
  - unfold ex_events. repeat (apply Forall_cons; [cbn [event_ok]; first [exact I|split; [first [exact PL|unfold is_i64; lia]|first [discriminate|intros _; unfold is_i64; lia]]]|]). apply Forall_nil.
  - pose proof (told_nothing ex_parse [109]) as T.
    pose proof (told_lines _ _ _ _ _ _ (fun _ => 7) _ _ T (ex_asked 7)) as T1. vm_compute fold_left in T1. clear T.
    pose proof (told_dump _ _ _ _ _ _ _ 20 T1) as T2.
    pose proof (told_lines _ _ _ _ _ _ (fun _ => 30) _ _ T2 (ex_asked 30)) as T3. vm_compute fold_left in T3.
    pose proof (told_restart _ _ _ _ _ _ T3) as T4.
    pose proof (told_lines _ _ _ _ _ _ (fun _ => 60) _ _ T4 (ex_asked 60)) as T5. vm_compute fold_left in T5.
    pose proof (told_lines _ _ _ _ _ _ (fun _ => 70) _ _ T5 (ex_asked 70)) as T6. vm_compute fold_left in T6.
    exact (told_dump _ _ _ _ _ _ _ 90 T6).
  - pose proof (sys_start ex_parse count_params 79 3 1) as S.
    eapply (sys_connection _ _ _ _ _ _ _ _ (fun _ => 7) ex_lines) in S; [|vm_compute; reflexivity].
    eapply (sys_dump_all _ _ _ _ _ _ _ _ 20) in S; [|vm_compute; reflexivity].
    eapply (sys_connection _ _ _ _ _ _ _ _ (fun _ => 30) ex_lines) in S; [|vm_compute; reflexivity].
    eapply (sys_restart _ _ _ _ _ _ _ _ 2 prng) in S; [|apply ex_history].
    eapply (sys_connection _ _ _ _ _ _ _ _ (fun _ => 60) ex_lines) in S; [|vm_compute; reflexivity].
    eapply (sys_connection _ _ _ _ _ _ _ _ (fun _ => 70) ex_lines) in S; [|vm_compute; reflexivity].
    eapply (sys_dump_all _ _ _ _ _ _ _ _ 90) in S; [|vm_compute; reflexivity].
    do 2 eexists. split; [exact S|]. vm_compute. auto.
Qed.
