(** Proofs about Pipeline.v. *)
From Coq Require Import ZArith List Lia Bool Permutation.
From Verif Require Import Base Maps Pb PbRecord PbProofs Float FloatProofs Agg AggSpec AggProofs Writer WriterSpec WriterProofs Dump DumpProofs
  Cache FileProofs Metric MetricSpec MetricFile MetricProofs DbSpec DbProofs DbLog DbClient Query QueryProofs Graphite GraphiteSpec PipelineSpec Pipeline
  Props_Codec Props_Data Props_Graphite Props_Storage Props_Conc.
Import ListNotations.
Open Scope Z_scope.

(** ** sizes of records *)
Lemma put_bytes_bound t b : len b < 2 ^ 62 -> 0 <= len (put_bytes t b) <= len b + 11.
Proof.
  intros H. unfold put_bytes. pose proof (len_nonneg b). destruct (Z.eqb_spec (len b) 0); [cbn; lia|].
  rewrite len_cons, len_app. pose proof (put_varint_len (len b) ltac:(lia)). lia.
Qed.
Lemma put_float_bound t b : 0 <= len (put_float t b) <= 9.
Proof.
  unfold put_float. destruct (fbits_zero b); [cbn; lia|]. rewrite len_cons. unfold len. rewrite le8_length. lia.
Qed.
Lemma put_float_bytes t b : is_byte t -> is_bytes (put_float t b).
Proof.
  intros Ht. unfold put_float. destruct (fbits_zero b); [constructor|]. constructor; [exact Ht|].
  unfold le8. apply Forall_rev. apply be_bytes.
Qed.
Lemma put_bytes_bytes t b : is_byte t -> len b < 2 ^ 62 -> is_bytes b -> is_bytes (put_bytes t b).
Proof.
  intros Ht Hl Hb. unfold put_bytes. pose proof (len_nonneg b). destruct (len b =? 0); [constructor|]. constructor; [exact Ht|].
  apply Forall_app. split; [apply put_varint_bytes; lia|exact Hb].
Qed.
Lemma record_size r : len (d_dist r) < 2 ^ 62 -> len (d_kind r) < 2 ^ 62 -> d_minid r = [] -> d_maxid r = [] ->
  0 <= len (drec_marshal r) <= len (d_dist r) + len (d_kind r) + 84.
Proof.
  intros H1 H2 E1 E2. unfold drec_marshal. rewrite E1, E2. rewrite !len_app.
  pose proof (put_field_bound 8 (d_start r)). pose proof (put_field_bound 16 (d_end r)). pose proof (put_field_bound 24 (d_obs r)).
  pose proof (put_field_bound 80 (d_merged r)). pose proof (put_bytes_bound 34 _ H1). pose proof (put_bytes_bound 42 _ H2).
  pose proof (put_float_bound 49 (d_min r)). pose proof (put_float_bound 57 (d_max r)).
  change (len (put_bytes 66 [])) with 0. change (len (put_bytes 74 [])) with 0. lia.
Qed.
Lemma record_bytes r : len (d_dist r) < 2 ^ 62 -> len (d_kind r) < 2 ^ 62 -> d_minid r = [] -> d_maxid r = [] ->
  is_bytes (d_dist r) -> is_bytes (d_kind r) -> is_bytes (drec_marshal r).
Proof.
  intros H1 H2 E1 E2 B1 B2. unfold drec_marshal. rewrite E1, E2.
  repeat (apply Forall_app; split); try (apply put_field_bytes; unfold is_byte; lia); try (apply put_float_bytes; unfold is_byte; lia);
    try (apply put_bytes_bytes; unfold is_byte; try lia; auto); constructor.
Qed.

(** ** the additions the lines ask for *)
Lemma asked_unique parse clock l : forall i es es', asked parse clock i l es -> asked parse clock i l es' -> es = es'.
Proof.
  induction l as [|line l IH]; intros i es es' A B; inversion A; inversion B; subst; auto.
  - eapply IH; eauto.
  - exfalso. match goal with H : forall m v, ~ says _ _ _ _, K : says _ _ _ _ |- _ => exact (H _ _ K) end.
  - exfalso. match goal with H : forall m v, ~ says _ _ _ _, K : says _ _ _ _ |- _ => exact (H _ _ K) end.
  - match goal with H : says _ _ m v, K : says _ _ m0 v0 |- _ => destruct (says_unique _ _ _ _ _ _ H K) as [-> ->] end. f_equal. eapply IH; eauto.
Qed.
Lemma asked_in parse clock l : forall i es e, asked parse clock i l es -> In e es ->
  exists j m v, e = EAdd (clock j) m v [] /\ exists line, says parse line m v.
Proof.
  induction l as [|line l IH]; intros i es e A H; inversion A; subst; [destruct H|eapply IH; eauto|].
  destruct H as [<-|H]; [eauto 8|eapply IH; eauto].
Qed.
Lemma asked_len parse clock l : forall i es, asked parse clock i l es -> (length es <= length l)%nat.
Proof. induction l as [|line l IH]; intros i es A; inversion A; subst; cbn [length]; [lia| |]; match goal with H : asked _ _ _ _ _ |- _ => apply IH in H; lia end. Qed.

(** ** events of the writer that come from lines and dumps *)
Definition wevent_ok (e : wevent) : Prop :=
  match e with
  | EAdd t _ v id => is_i64 t /\ is_f64 v /\ id = []
  | ECapture t _ _ => is_i64 t
  | EIterate _ _ _ => False
  end.
Lemma ok_floats h : Forall wevent_ok h -> hist_floats h.
Proof. intros H t m v id X. rewrite Forall_forall in H. exact (proj1 (proj2 (H _ X))). Qed.
Lemma ok_ids h m : Forall wevent_ok h -> forall v i, In (v, i) (pending m h) -> i = [] /\ is_f64 v.
Proof.
  induction h as [|e h IH] using rev_ind; intros H v i; [intros []|]. apply Forall_app in H. destruct H as [H He]. inversion He; subst.
  rewrite pending_snoc. destruct e; cbn [pending_add wevent_ok] in *; [|intros []|auto].
  destruct (beqb m metric && counts val); [|auto]. rewrite in_app_iff. intros [X|[X|[]]]; [auto|]. injection X as <- <-. tauto.
Qed.
Lemma ok_boundary h b : Forall wevent_ok h -> boundary h = Some b -> is_i64 b.
Proof.
  induction h as [|e h IH] using rev_ind; intros H E; [discriminate|]. apply Forall_app in H. destruct H as [H He]. inversion He; subst.
  rewrite boundary_snoc in E. destruct e; cbn [boundary_add wevent_ok] in *; [| |contradiction].
  - destruct (boundary h) as [b'|]; [auto|]. destruct (counts val); [|discriminate]. injection E as <-. tauto.
  - destruct (boundary h) as [b'|]; [|discriminate]. injection E as <-. tauto.
Qed.
Lemma boundary_app h es : boundary (h ++ es) = fold_left boundary_add es (boundary h).
Proof. unfold boundary. now rewrite fold_left_app. Qed.
Lemma pending_app m h es : pending m (h ++ es) = fold_left (pending_add m) es (pending m h).
Proof. unfold pending. now rewrite fold_left_app. Qed.
(** values are pending only after the first value began a period *)
Lemma pending_boundary m h : Forall wevent_ok h -> pending m h <> [] -> boundary h <> None.
Proof.
  induction h as [|e h IH] using rev_ind; intros H; [intros X; now destruct X|]. apply Forall_app in H. destruct H as [H He].
  rewrite pending_snoc, boundary_snoc. destruct e; cbn [pending_add boundary_add]; [|congruence|auto].
  destruct (beqb m metric && counts val) eqn:E.
  - intros _. apply andb_prop in E. destruct E as [_ ->]. destruct (boundary h); discriminate.
  - intros X. specialize (IH H X). destruct (boundary h); [discriminate|contradiction].
Qed.

(** ** the writes of one metric, newest first *)
Fixpoint wlog_ (m : list Z) (ops : list op) (log : list value) : list value :=
  match ops with
  | [] => log
  | OWrite m' v :: ops => wlog_ m ops (if beqb m' m then v :: log else log)
  | _ :: ops => wlog_ m ops log
  end.
Definition wlog (m : list Z) (ops : list op) : list value := wlog_ m ops [].
Definition to_metric (m : list Z) (o : op) : list value := match o with OWrite m' v => if beqb m' m then [v] else [] | _ => [] end.
Lemma wlog_flat m ops : forall log, wlog_ m ops log = rev (flat_map (to_metric m) ops) ++ log.
Proof.
  induction ops as [|o ops IH]; intros log; [reflexivity|]. destruct o; cbn [wlog_ flat_map to_metric]; rewrite IH; auto.
  destruct (beqb name m); cbn [app rev]; [now rewrite <- app_assoc|reflexivity].
Qed.
Lemma wlog_app m a b : wlog m (a ++ b) = wlog_ m b (wlog m a).
Proof. unfold wlog. rewrite !wlog_flat, flat_map_app, rev_app_distr, app_nil_r, app_nil_r. reflexivity. Qed.
Lemma flat_writes m ops : flat_map (to_metric m) ops = flat_map (to_metric m) (filter is_write ops).
Proof. induction ops as [|o ops IH]; [reflexivity|]. destruct o; cbn [filter is_write flat_map to_metric]; rewrite ?IH; reflexivity. Qed.
Lemma flat_perm {A B} (f : A -> list B) l l' : Permutation l l' -> Permutation (flat_map f l) (flat_map f l').
Proof.
  induction 1; cbn [flat_map]; [constructor|now apply Permutation_app_head| |eapply perm_trans; eauto].
  rewrite !app_assoc. apply Permutation_app_tail, Permutation_app_comm.
Qed.
(** a dump writes one record of a metric or none *)
Lemma dump_writes m recs more :
  NoDup (map fst recs) -> Permutation (filter is_write more) (map written_as (map d_args recs)) ->
  (forall r, In (m, r) recs -> flat_map (to_metric m) more = [Val (d_start r) (d_end r) (drec_marshal r)]) /\
  (~ In m (map fst recs) -> flat_map (to_metric m) more = []).
Proof.
  intros N P. assert (Q : Permutation (flat_map (to_metric m) more) (flat_map (to_metric m) (map written_as (map d_args recs)))).
  { rewrite flat_writes. now apply flat_perm. }
  assert (Z : ~ In m (map fst recs) -> flat_map (to_metric m) (map written_as (map d_args recs)) = []).
  { clear. induction recs as [|[k r] l IH]; intros H; [reflexivity|]. cbn [map flat_map d_args written_as to_metric fst] in *.
    destruct (beqb k m) eqn:E; [apply beqb_eq in E; exfalso; apply H; now left|]. apply IH. intros X. apply H. now right. }
  assert (O : forall r, In (m, r) recs -> flat_map (to_metric m) (map written_as (map d_args recs)) = [Val (d_start r) (d_end r) (drec_marshal r)]).
  { clear - N. induction recs as [|[k r'] l IH]; intros r H; [destruct H|]. cbn [map fst] in N. inversion N; subst.
    cbn [map flat_map d_args written_as to_metric fst snd] in *. destruct H as [H|H].
    - injection H as -> ->. rewrite beqb_refl. cbn [app]. f_equal.
      assert (Z : ~ In m (map fst l)) by assumption. clear - Z. induction l as [|[k x] l IH]; [reflexivity|].
      cbn [map flat_map d_args written_as to_metric fst] in *. destruct (beqb k m) eqn:E; [apply beqb_eq in E; exfalso; apply Z; now left|].
      apply IH. intros X. apply Z. now right.
    - destruct (beqb k m) eqn:E; [apply beqb_eq in E; subst k; exfalso; apply (in_map fst) in H; contradiction|]. cbn [app]. auto. }
  split.
  - intros r H. rewrite (O r H) in Q. apply Permutation_sym, Permutation_length_1_inv in Q. exact Q.
  - intros H. rewrite (Z H) in Q. apply Permutation_sym, Permutation_nil in Q. exact Q.
Qed.

(** ** the database takes every write *)
Lemma same_options_app size cap max a b : same_options size cap max (a ++ b) <-> same_options size cap max a /\ same_options size cap max b.
Proof. induction a as [|o a IH]; cbn [app same_options]; [tauto|]. destruct o; try exact IH. rewrite IH. tauto. Qed.
Lemma ops_ok_app size cap max a b : same_options size cap max a -> (ops_ok size cap (a ++ b) <-> ops_ok size cap a /\ ops_ok size cap b).
Proof.
  induction a as [|o a IH]; cbn [app same_options ops_ok]; [tauto|]. destruct o; intros H; try exact (IH H).
  - rewrite (IH H). tauto.
  - destruct H as (-> & -> & -> & H). rewrite (IH H). tauto.
Qed.
Lemma all_acked root size cap max handles rand m : forall ops,
  history_ok root size cap handles rand ops -> same_options size cap max ops ->
  (forall v, In v (wlog m ops) -> nrec size v < cap) -> desc (wlog m ops) ->
  let '(st, outs) := c_run ops (db_empty root size cap max handles rand) in acked m ops outs = wlog m ops.
Proof.
  induction ops as [|o ops IH] using rev_ind; intros H Hs Hn Hd; [reflexivity|].
  destruct H as (H1 & H2 & H3 & H4). apply same_options_app in Hs. destruct Hs as [Hs Ho].
  apply (ops_ok_app size cap max) in H3; [|exact Hs]. destruct H3 as [H3 H5].
  assert (H : history_ok root size cap handles rand ops) by (repeat split; auto; try apply H2; rewrite app_length in H4; cbn [length] in H4; lia).
  rewrite wlog_app in Hn, Hd |- *. rewrite c_run_app.
  assert (IH' : (forall v, In v (wlog m ops) -> nrec size v < cap) -> desc (wlog m ops) ->
    let '(st, outs) := c_run ops (db_empty root size cap max handles rand) in acked m ops outs = wlog m ops) by (intros; apply IH; auto).
  clear IH. pose proof (c_run_len ops (db_empty root size cap max handles rand)) as L.
  pose proof (fun name v => C18_fitting_values_accepted_partial root size cap max handles rand ops name v H Hs) as A.
  destruct (c_run ops (db_empty root size cap max handles rand)) as [st outs]. cbn [snd] in L. cbn [c_run].
  destruct (c_step o st) as [st' r] eqn:E. rewrite acked_app by auto.
  destruct o as [name v|name e|name|s c mx hd rd]; cbn [wlog_] in *.
  - cbn [acked_]. destruct (beqb name m) eqn:En.
    + apply beqb_eq in En. subst name. cbn [ops_ok] in H5. specialize (A m v (proj1 H5)). cbn zeta in A.
      assert (Hd' : desc (wlog m ops) /\ forall w, In w (wlog m ops) -> v_end w < v_end v).
      { clear - Hd. revert v Hd. induction (wlog m ops) as [|x l IH]; intros v Hd; [split; [exact I|intros w []]|].
        change (v_end x < v_end v /\ desc (x :: l)) in Hd. destruct Hd as [Hf Hd]. split; [exact Hd|].
        intros w [<-|Hw]; [exact Hf|]. pose proof (proj2 (IH x Hd) w Hw). lia. }
      destruct Hd' as [D1 D2]. specialize (IH' (fun w Hw => Hn w (or_intror Hw)) D1). rewrite IH' in *.
      destruct (A D2) as (st2 & r2 & E2 & K). rewrite E in E2. injection E2 as <- ->.
      destruct K as [->|(_ & K & _)]; [reflexivity|]. specialize (Hn v (or_introl eq_refl)). lia.
    + rewrite (IH' Hn Hd). destruct r; [destruct r as [[]| | |]| | |]; reflexivity.
  - cbn [acked_]. rewrite (IH' Hn Hd). reflexivity.
  - cbn [acked_]. rewrite (IH' Hn Hd). reflexivity.
  - cbn [acked_]. rewrite (IH' Hn Hd). reflexivity.
Qed.

Definition stored (p : params) (v : value) (w : window) : Prop :=
  v_start v = win_start w /\ v_end v = win_end w /\ tells p w (v_data v).
Lemma same_number_zero a b : same_up_to_zero_sign a b -> same_number a b.
Proof. unfold same_up_to_zero_sign, same_number, zero_bits. tauto. Qed.
Lemma record_good p size cap b now log r : opts_ok size cap -> roomy p size cap -> is_i64 b -> is_i64 now -> now <> 0 ->
  Z.of_nat (length log) < 2 ^ 63 -> (forall v i, In (v, i) log -> i = [] /\ is_f64 v) -> describes p b now log r ->
  let v := Val (d_start r) (d_end r) (drec_marshal r) in
  val_ok v /\ nrec size v < cap /\ stored p v (Window b now log).
Proof.
  intros Ho (Hk & Hr) Hb Hn Hz Hl Hi HD v. pose proof HD as (E1 & E2 & (E3 & (L1 & _) & (G1 & _)) & E4 & E5 & E6).
  destruct (Hi _ _ L1) as [I1 F1]. destruct (Hi _ _ G1) as [I2 F2]. destruct (Hr (map fst log)) as [B1 B2].
  assert (Hbig : (cap - 1) * (size - 24) < 2 ^ 61) by (unfold opts_ok in Ho; nia).
  pose proof (len_nonneg (p_marshal p (map fst log))) as P1. pose proof (len_nonneg (p_kind p)) as P2.
  assert (L3 : len (d_dist r) < 2 ^ 62) by (rewrite E4; lia). assert (L4 : len (d_kind r) < 2 ^ 62) by (rewrite E5; lia).
  pose proof (record_size r L3 L4 I1 I2) as S. rewrite E4, E5 in S.
  assert (By : is_bytes (drec_marshal r)) by (apply record_bytes; auto; [rewrite E4|rewrite E5]; auto).
  split; [|split].
  - unfold val_ok, v. cbn [v_start v_end v_data]. rewrite E1, E2. auto.
  - unfold nrec, v. cbn [v_data]. assert (1 < cap) by (unfold opts_ok in Ho; nia). destruct (len (drec_marshal r) =? 0); [lia|].
    apply Z.div_lt_upper_bound; unfold opts_ok in Ho; nia.
  - unfold stored, v. cbn [v_start v_end v_data win_start win_end]. split; [exact E1|]. split; [exact E2|].
    destruct (C07_data_record_roundtrip r) as (a & Ea & X1 & X2 & X3 & X4 & X5 & X6 & X7 & X8 & X9 & X10).
    + now rewrite E1.
    + now rewrite E2.
    + rewrite E3. unfold is_i64. lia.
    + rewrite E6. unfold is_i64. lia.
    + exact F1.
    + exact F2.
    + lia.
    + exists a, r. split; [exact Ea|]. split; [|exact HD].
      unfold same_record. auto 12 using same_number_zero.
Qed.

Lemma told_ends parse m ev b log ws t : told parse m ev b log ws -> dumps_before ev t -> Forall (fun w => win_end w < t) ws.
Proof.
  induction 1; cbn [dumps_before]; auto; [intros []; auto|]. intros [A B]. constructor; [exact A|auto].
Qed.
Section Inv.
Context (parse : list Z -> option Z) (p : params) (size cap max : Z).
Hypothesis Hnew : p_new p = true.
Hypothesis Hparse : forall x v, parse x = Some v -> is_f64 v.
Hypothesis Hopts : opts_ok size cap.
Hypothesis Hroom : roomy p size cap.

Lemma told_desc m ev b log ws : told parse m ev b log ws -> dumps_increase ev -> forall vs, Forall2 (stored p) vs ws -> desc vs.
Proof.
  induction 1; cbn [dumps_increase]; auto.
  - intros _ vs F. inversion F. exact I.
  - intros [A B]. auto.
  - intros [A B] vs F. inversion F as [|v w vs' ? (S1 & S2 & _) F']; subst. apply desc_cons; [auto|].
    intros v' r ->. inversion F' as [|? w' ? ws' (S3 & S4 & _) _]; subst. pose proof (told_ends _ _ _ _ _ _ _ H A) as T. inversion T; subst.
    cbn [win_end] in S2. lia.
Qed.

Lemma sys_inv ev w ops : sys parse p size cap max ev w ops -> Forall event_ok ev -> lines_of ev < 2 ^ 63 ->
  exists h, w_hist p h w /\ Forall wevent_ok h /\ Z.of_nat (length h) <= lines_of ev /\
    (forall m b log ws, told parse m ev b log ws -> boundary h = b /\ pending m h = log /\ Forall2 (stored p) (wlog m ops) ws) /\
    same_options size cap max ops /\ ops_ok size cap ops /\ (forall m v, In v (wlog m ops) -> nrec size v < cap).
Proof.
  induction 1 as [|ev w ops clock lines ok w' S IH Hc|ev w ops now recs w' pool nbuf d writes skips errors more S IH St Np Hp Hd Em Ec El Pf
                 |ev w ops o S IH O1 O2|ev w ops handles rand S IH Pk]; intros He Hl.
  - exists []. split; [constructor|]. split; [constructor|]. split; [cbn; lia|]. split.
    + intros m b log ws T. inversion T; subst. repeat split; constructor.
    + split; [exact I|]. split; [exact I|]. intros m v [].
  - pose proof (Forall_inv He) as E0. pose proof (Forall_inv_tail He) as He'. cbn [event_ok] in E0. destruct E0 as [E1 E2]. cbn [lines_of] in Hl. destruct IH as (h & H1 & H2 & H3 & H4 & H5); [auto|lia|].
    destruct (C54_connection parse p clock lines h w w' ok E1 H1 Hc) as (_ & adds & A1 & A2).
    exists (h ++ adds). split; [exact A2|]. split.
    { apply Forall_app. split; [exact H2|]. apply Forall_forall. intros e X. destruct (asked_in _ _ _ _ _ _ A1 X) as (j & m & v & -> & line & y & r & _ & Y).
      cbn [wevent_ok]. split; [auto|]. split; [exact (Hparse _ _ Y)|reflexivity]. }
    split. { rewrite app_length. cbn [lines_of]. apply asked_len in A1. rewrite map_length in A1. lia. }
    split; [|exact H5].
    intros m b log ws T. inversion T as [|? b0 log0 ? ? ? adds' T' A'| | |]; subst. rewrite (asked_unique _ _ _ _ _ _ A' A1).
    destruct (H4 _ _ _ _ T') as (<- & <- & F). rewrite boundary_app, pending_app. auto.
  - pose proof (Forall_inv He) as E0. pose proof (Forall_inv_tail He) as He'. cbn [event_ok] in E0. destruct E0 as [E1 E2]. cbn [lines_of] in Hl. destruct IH as (h & H1 & H2 & H3 & H4 & H5 & H6 & H7); [auto|lia|].
    assert (Hfit : hist_fits h) by (unfold hist_fits; lia).
    destruct (C35_capture_partial p h w now recs true w' Hnew Hfit (ok_floats _ H2) H1 St) as (N & D & A).
    destruct (C37_dump_accounting recs pool nbuf d writes skips errors Np Hp Hd Em Ec) as (Q & _).
    destruct Pf as [Pf Pr]. rewrite Q in Pf. change (Permutation (filter is_write more) (map written_as (map d_args recs))) in Pf.
    assert (G : forall m r, In (m, r) recs -> exists b, boundary h = Some b /\ pending m h <> [] /\
       let v := Val (d_start r) (d_end r) (drec_marshal r) in val_ok v /\ nrec size v < cap /\ stored p v (Window b now (pending m h))).
    { intros m r X. destruct (D m r X) as (b & B & De). exists b. split; [exact B|]. split.
      - destruct De as (_ & _ & (_ & (I1 & _) & _) & _). intros Y. rewrite Y in I1. destruct I1.
      - apply (record_good p size cap); auto; [eapply ok_boundary; eauto| |intros v i; apply ok_ids; auto].
        pose proof (pending_len m h). lia. }
    assert (W : forall m, flat_map (to_metric m) more = [] /\ pending m h = [] \/
       exists b v, flat_map (to_metric m) more = [v] /\ boundary h = Some b /\ pending m h <> [] /\ val_ok v /\ nrec size v < cap /\ stored p v (Window b now (pending m h))).
    { intros m. destruct (dump_writes m recs more N Pf) as [W1 W2]. destruct (pending m h) as [|x l] eqn:Ep.
      - left. split; [|reflexivity]. apply W2. intros X. apply in_map_iff in X. destruct X as ([k r] & Y & X). cbn in Y. subst k.
        destruct (G m r X) as (_ & _ & Y & _). contradiction.
      - right. destruct (A eq_refl m) as (r & X); [rewrite Ep; discriminate|]. destruct (G m r X) as (b & B & _ & V1 & V2 & V3).
        rewrite Ep in V3. exists b, (Val (d_start r) (d_end r) (drec_marshal r)). rewrite (W1 r X). repeat split; auto; try discriminate; apply V1 || apply V3. }
    exists (h ++ [ECapture now recs true]). split; [econstructor; eauto|]. split; [apply Forall_app; split; [exact H2|constructor; [exact E1|constructor]]|].
    split; [rewrite app_length; cbn [length lines_of]; lia|]. split; [|split; [|split]].
    + intros m b log ws T. rewrite boundary_snoc, pending_snoc. cbn [boundary_add pending_add]. rewrite wlog_app, wlog_flat.
      inversion T as [| |? b0 ws0 ? T'|? b0 x l ws0 ? T'|]; subst.
      * destruct (H4 _ _ _ _ T') as (<- & Ep & F). destruct (W m) as [[-> _]|(? & ? & _ & _ & Y & _)]; [|contradiction].
        split; [destruct (boundary h); reflexivity|]. split; [reflexivity|exact F].
      * destruct (H4 _ _ _ _ T') as (Eb & Ep & F). destruct (W m) as [[_ Y]|(b & v & -> & Y & _ & _ & _ & Z)]; [congruence|].
        rewrite Eb in Y |- *. injection Y as <-. split; [reflexivity|]. split; [reflexivity|]. rewrite Ep in Z. cbn [rev app]. constructor; assumption.
    + apply same_options_app. split; [exact H5|]. clear - Pr. induction more as [|o more IH]; [exact I|]. destruct o; cbn in *; auto; discriminate.
    + apply (ops_ok_app size cap max); [exact H5|]. split; [exact H6|].
      assert (V : forall m v, In (OWrite m v) more -> value_fits size cap v).
      { intros m v X. destruct (W m) as [[Y _]|(b & v' & Y & _ & _ & V1 & V2 & _)].
        - exfalso. assert (In v []) as []. rewrite <- Y. apply in_flat_map. exists (OWrite m v). split; [exact X|]. cbn. rewrite beqb_refl. now left.
        - assert (In v [v']) as [<-|[]]. { rewrite <- Y. apply in_flat_map. exists (OWrite m v). split; [exact X|]. cbn. rewrite beqb_refl. now left. }
          split; [exact V1|lia]. }
      clear - V Pr. induction more as [|o more IH]; [exact I|]. destruct o; cbn [filter is_reopen ops_ok] in *; try discriminate; try (apply IH; [exact Pr|intros m v X; apply (V m v); now right]).
      split; [apply (V name v); now left|apply IH; [exact Pr|intros m v' X; apply (V m v'); now right]].
    + intros m v. rewrite wlog_app, wlog_flat. destruct (W m) as [[-> _]|(b & v' & -> & _ & _ & _ & V2 & _)]; cbn [rev app]; [apply H7|].
      intros [<-|X]; [exact V2|eapply H7; eauto].
  - destruct (IH He Hl) as (h & H1 & H2 & H3 & H4 & H5 & H6 & H7). exists h. split; [exact H1|]. split; [exact H2|]. split; [exact H3|].
    assert (Hw : forall m, wlog m (ops ++ [o]) = wlog m ops) by (intros m; rewrite wlog_app; destruct o; try discriminate; reflexivity).
    split; [intros m b log ws T; rewrite Hw; auto|]. split; [apply same_options_app; split; [exact H5|destruct o; try discriminate; exact I]|].
    split; [apply (ops_ok_app size cap max); [exact H5|]; split; [exact H6|destruct o; try discriminate; exact I]|]. intros m v. rewrite Hw. apply H7.
  - pose proof (Forall_inv_tail He) as He'. cbn [lines_of] in Hl. destruct IH as (h & H1 & H2 & H3 & H4 & H5 & H6 & H7); [auto|lia|].
    exists []. split; [constructor|]. split; [constructor|]. split; [cbn [length lines_of]; pose proof (Zle_0_nat (length h)); lia|].
    assert (Hw : forall m, wlog m (ops ++ [OReopen size cap max handles rand]) = wlog m ops) by (intros m; rewrite wlog_app; reflexivity).
    split; [|split; [|split]].
    + intros m b log ws T. rewrite Hw. inversion T as [| | | |? b0 log0 ? T']; subst. destruct (H4 _ _ _ _ T') as (_ & _ & F). auto.
    + apply same_options_app. split; [exact H5|]. cbn. auto.
    + apply (ops_ok_app size cap max); [exact H5|]. split; [exact H6|]. split; [exact Pk|exact I].
    + intros m v. rewrite Hw. apply H7.
Qed.
End Inv.
