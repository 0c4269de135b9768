(** C92: every JSON answer of the api server can be read. *)
From Coq Require Import String ZArith List Bool Lia.
From Coq Require Import Floats.SpecFloat.
From Flocq Require Import Core.Core IEEE754.BinarySingleNaN.
From Verif Require Import Base Pb PbRecord Float FloatReal RateProofs Query Merge Server Convert ConvertProofs Json JsonSpec JsonProofs Props_Json FloatText Props_FloatText Props_Merge Props_Server.
Import ListNotations.
Open Scope Z_scope.

(** ** the rate of a column is a float64, whatever is stored *)
Definition is_bin (f : spec_float) : Prop := exists x : bin, f = B2SF x.
Lemma bin_valid f : is_bin f -> SpecFloat.valid_binary 53 1024 f = true.
Proof. intros [x ->]. apply valid_binary_B2SF. Qed.
Lemma bin_int n : is_bin (f_of_int n).
Proof. unfold f_of_int. rewrite normalize_equiv. eexists. reflexivity. Qed.
Lemma bin_add x y : is_bin x -> is_bin y -> is_bin (f_add x y).
Proof. intros [a ->] [b ->]. unfold f_add. rewrite add_equiv. eexists. reflexivity. Qed.
Lemma bin_div x y : is_bin x -> is_bin y -> is_bin (f_div x y).
Proof. intros [a ->] [b ->]. unfold f_div. rewrite div_equiv. eexists. reflexivity. Qed.
Lemma bin_rate l : is_bin (col_obs_sec l).
Proof.
  unfold col_obs_sec. apply bin_div; [|apply bin_int].
  assert (G : forall z, is_bin z -> is_bin (fold_left (fun z mr => let r := mr_rec mr in
    f_add z (f_div (f_div (f_of_int (d_obs r)) (f_of_int (d_merged r))) (f_seconds (i64 (d_end r - d_start r))))) l z)).
  { induction l as [|mr l IH]; intros z Hz; [exact Hz|]. cbn [fold_left]. apply IH. apply bin_add; [exact Hz|]. apply bin_div; [apply bin_div; apply bin_int|].
    unfold f_seconds. apply bin_add; [apply bin_int|apply bin_div; apply bin_int]. }
  apply G. exists (B754_zero false). reflexivity.
Qed.

(** ** where columns are, whatever is pushed *)
Definition good (c : column) : Prop := 0 <= col_x c /\ 0 < col_w c /\ col_x c + col_w c <= 2 ^ 63 /\ SpecFloat.valid_binary 53 1024 (col_rate c) = true.
Lemma emit_good o start finish l c : emit o start finish l = Ok c -> 0 <= start -> start <= finish -> finish < 2 ^ 63 -> good c.
Proof.
  unfold emit. destruct (merge _ _) as [out| | |]; cbn [bind]; try discriminate. destruct (mo_sample o out); [|discriminate]. intros E A B C. injection E as <-.
  unfold good. cbn [col_x col_w col_rate]. pose proof (bin_valid _ (bin_rate l)). repeat split; try lia. assumption.
Qed.
Lemma loop_good o recs : forall n px te tend cols te' tend' cols',
  completed_loop o recs n px te tend cols = Ok (te', tend', cols') ->
  ((0 < n)%nat -> Z.of_nat n <= px + 1) -> px < 2 ^ 63 -> (te <> [] -> px < tend < 2 ^ 63) -> Forall good cols ->
  Forall good cols' /\ (te' <> [] -> px - Z.of_nat n < tend' < 2 ^ 63).
Proof.
  induction n as [|n IH]; intros px te tend cols te' tend' cols' E N P T G.
  - cbn in E. injection E as <- <- <-. split; [exact G|]. intros X. apply T in X. lia.
  - cbn [completed_loop] in E. specialize (N ltac:(lia)). rewrite Nat2Z.inj_succ in *.
    destruct (ints_eq (candidates px 0 recs) te).
    + apply IH in E; [|intros; lia|lia|intros X; apply T in X; lia|exact G]. destruct E as [A B]. split; [exact A|]. intros X. apply B in X. lia.
    + destruct te as [|i te].
      * apply IH in E; [|intros; lia|lia|intros; lia|exact G]. destruct E as [A B]. split; [exact A|]. intros X. apply B in X. lia.
      * destruct (emit o (px + 1) tend (pick recs (i :: te))) as [c| | |] eqn:Ec; cbn [bind] in E; try discriminate.
        specialize (T ltac:(discriminate)). apply emit_good in Ec; [|lia..].
        apply IH in E; [|intros; lia|lia|intros; lia|apply Forall_app; split; [exact G|constructor; [exact Ec|constructor]]].
        destruct E as [A B]. split; [exact A|]. intros X. apply B in X. lia.
Qed.
Definition mg_good (m : merger) : Prop := Forall good (mg_columns m) /\ mg_completed m <= 2 ^ 63.
Lemma completed_good px m m' : completed px m = Ok m' -> 0 <= px <= 2 ^ 63 -> mg_good m -> mg_good m'.
Proof.
  unfold completed. intros E Hp [G C]. destruct (Z.le_gt_cases (mg_completed m) px) as [L|L].
  { replace (Z.to_nat (mg_completed m - px)) with 0%nat in E by lia. cbn [completed_loop bind] in E. injection E as <-. split; cbn [mg_columns mg_completed]; [exact G|lia]. }
  destruct (completed_loop _ _ _ _ _ _ _) as [[[te tend] cols]| | |] eqn:El; cbn [bind] in E; try discriminate.
  apply loop_good in El; [|intros; lia|lia|intros X; now contradiction X|exact G]. destruct El as [A B].
  destruct te as [|i te].
  - cbn [bind] in E. injection E as <-. split; cbn [mg_columns mg_completed]; [exact A|lia].
  - specialize (B ltac:(discriminate)).
    destruct (emit (mg_opts m) px tend (pick (mg_records m) (i :: te))) as [c| | |] eqn:Ec; cbn [bind] in E; try discriminate.
    injection E as <-. split; cbn [mg_columns mg_completed]; [|lia]. apply Forall_app. split; [exact A|]. constructor; [|constructor]. eapply emit_good; [exact Ec|lia..].
Qed.
Lemma pixel_range m t e : time_to_pixel m t = Ok e -> 0 <= e < 2 ^ 63.
Proof.
  unfold time_to_pixel. destruct (mg_pixel m =? 0); [discriminate|]. cbv zeta. set (x := i64 (mg_width m - _)). pose proof (i64_range (mg_width m - i64 (Z.quot (i64 (mo_now (mg_opts m) - t + mg_pixel m - 1)) (mg_pixel m)))) as R. fold x in R.
  unfold is_i64 in R. intros E. injection E as <-. destruct (Z.ltb_spec x 0); lia.
Qed.
Lemma push_good r m m' : mg_push r m = Ok m' -> mg_good m -> mg_good m'.
Proof.
  unfold mg_push. intros E G. destruct (mg_width m =? 0); [discriminate|].
  destruct (time_to_pixel m (d_start r)) as [s| | |]; cbn [bind] in E; try discriminate.
  destruct (time_to_pixel m (d_end r)) as [f| | |] eqn:F; cbn [bind] in E; try discriminate. apply pixel_range in F.
  destruct (completed (f + 1) m) as [m1| | |] eqn:K; cbn [bind] in E; try discriminate. apply completed_good in K; [|lia|exact G].
  injection E as <-. exact K.
Qed.
Lemma finish_good m cols : mg_finish m = Ok cols -> mg_good m -> Forall good cols.
Proof.
  unfold mg_finish. intros E G. destruct (completed 0 m) as [m1| | |] eqn:K; cbn [bind] in E; try discriminate. apply completed_good in K; [|lia|exact G]. injection E as <-. apply K.
Qed.

(** ** the handler *)
(** what the parts of the model's environment are in Go: bytes, int64s *)
Record env_ok (e : env) : Prop := {
  eo_query : forall m t x, In x (fst (e_query e m t)) -> Forall byte (snd x);
  eo_metrics : Forall (Forall byte) (fst (e_metrics e));
  eo_clock : is_i64 (e_clock e);
  eo_duration : forall s d, e_duration e s = Some d -> is_i64 d;
  eo_measure : forall p r w, e_measure e p r = Ok (Some w) -> is_i64 w
}.
Definition request_ok (r : request) : Prop := Forall (fun kv => Forall byte (snd kv)) (rq_form r).

Lemma get_int_i64 x d : is_i64 d -> is_i64 (get_int x d).
Proof.
  intros H. unfold get_int. destruct (parse_int x) as [v|] eqn:E; [|exact H]. unfold parse_int in E.
  match type of E with (let '(_, _) := ?x in _) = _ => destruct x as [neg d0] end. destruct d0 as [|c d0]; [discriminate|].
  destruct (digits_ 0 (c :: d0)) as [n|]; [|discriminate]. cbv zeta in E.
  match type of E with (if ?b then _ else _) = _ => destruct b eqn:B end; [|discriminate]. injection E as <-.
  apply andb_true_iff in B as [B1 B2]. apply Z.leb_le in B1. apply Z.ltb_lt in B2. unfold is_i64. lia.
Qed.
Lemma form_bytes f k : Forall (fun kv : list Z * list Z => Forall byte (snd kv)) f -> Forall byte (form_value f k).
Proof. induction 1 as [|[k' v] f H F IH]; cbn [form_value]; [constructor|]. destruct (beqb k' k); [exact H|exact IH]. Qed.

Definition state_good (s : rstate) : Prop := mg_good (rd_merger s) /\ forall b, option_map fst (rd_first s) = Some b -> Forall byte b.
Lemma loop_state e p sb : env_ok e -> forall l s s' b, render_loop e p sb l s = Ok (s', b) -> Forall (fun x => Forall byte (snd x)) l -> state_good s -> state_good s'.
Proof.
  intros H. induction l as [|[[st fin] buf] l IH]; intros s s' b E B G.
  - cbn in E. injection E as <- _. exact G.
  - cbn [render_loop] in E. inversion B as [|? ? B1 B2]; subst. cbn [snd] in B1.
    destruct (drec_unmarshal buf) as [rec| | |]; cbn [bind] in E; try discriminate.
    match type of E with bind ?x _ = _ => assert (X : forall s1 go, x = Ok (s1, go) -> state_good s1); [|destruct x as [[s1 go]| | |] eqn:E1; cbn [bind] in E; try discriminate] end.
    { intros s1 go. destruct (rd_first s) as [f|] eqn:Ef; [intros Y; injection Y as <- _; exact G|].
      destruct (e_load e rec); [|discriminate]. destruct (e_measure e p (Some rec)) as [w| | |] eqn:W; cbn [bind]; try discriminate. destruct w as [w|].
      - apply (eo_measure e H) in W. unfold mg_set_width. destruct (w =? 0); cbn [bind]; [discriminate|]. intros Y. injection Y as <- _.
        destruct G as [[G1 G2] G3]. split; cbn [rd_merger rd_first option_map fst]; [split; cbn [mg_columns mg_completed]; [exact G1|unfold is_i64 in W; lia]|].
        intros b0 Eb. now injection Eb as <-.
      - intros Y. injection Y as <- _. destruct G as [G1 G3]. split; cbn [rd_merger rd_first option_map fst]; [exact G1|]. intros b0 Eb. now injection Eb as <-. }
    specialize (X s1 go eq_refl). destruct go; [|injection E as <- _; exact X].
    destruct (mg_push rec (rd_merger s1)) as [m| | |] eqn:Em; cbn [bind] in E; try discriminate. destruct X as [X1 X2]. apply push_good in Em; [|exact X1].
    cbv zeta in E. destruct (sb <=? fin); [eapply IH; [exact E|exact B2|]; split; cbn [rd_merger rd_first]; assumption|].
    injection E as <- _. split; cbn [rd_merger rd_first]; assumption.
Qed.

Lemma search_sub names : forall s b s', search_run names s = Ok (b, s') -> forall (P : list Z -> Prop), Forall P (se_matched s) -> Forall P names -> Forall P (se_matched s').
Proof.
  induction names as [|n names IH]; intros s b s' E P A B; [injection E as _ <-; exact A|]. inversion B; subst. cbn [search_run] in E.
  destruct (search_add n s) as [[go s1]| | |] eqn:Ea; cbn [bind] in E; try discriminate.
  assert (A1 : Forall P (se_matched s1)).
  { unfold search_add in Ea. destruct (_ =? _); [injection Ea as _ <-; exact A|]. destruct (specs_match _ _) as [[|]| | |]; cbn [bind] in Ea; try discriminate; injection Ea as _ <-; [|exact A].
    cbn [se_matched]. apply Forall_app. split; [exact A|]. now constructor. }
  destruct go; [eapply IH; eauto|]. injection E as _ <-. exact A1.
Qed.

(** Whatever the request is, whatever is stored, configured or fails: if the answer is
    JSON (a list of names or a chart), it can be read, in one way only, and what is read
    is what was found: the names in order; the chart's columns with every float exactly
    as it was, window and size, the metric, and the bytes of the newest record.
    (Columns that are 2^63 pixels wide are excluded.) *)
Theorem C92_answers : forall o e r resp, env_ok e -> request_ok r -> serve o e r = Ok resp ->
  match rs_body resp with
  | BNames names => exists shown, reads_json (names_text names) (NArr (map NStr shown)) /\ Forall2 shown_as names shown
  | BGraph metric cols earliest p => (forall c, In c cols -> col_w c < 2 ^ 63) ->
      exists v, reads_json (graph_text json_number_text metric cols earliest p) v /\ graph_read json_number_text metric cols earliest p v /\
      (cols <> [] -> exists columns rest, v = NObj ((key "columns", NArr columns) :: rest) /\ Forall2 floats_read cols columns)
  | _ => True
  end.
Proof.
  intros o e r resp He Hr E. unfold serve in E. destruct (serve_http o e r) as [h ch] eqn:Eh.
  destruct h as [st b|x|]; [|injection E as <-; exact I|discriminate]. injection E as <-. cbn [rs_body].
  destruct b as [| | |names|metric cols earliest p|cols earliest p]; try exact I.
  - assert (B : Forall (Forall byte) names).
    { unfold serve_http in Eh. match type of Eh with (if ?b then _ else _) = _ => destruct b end; [discriminate|].
      destruct (negb _); [discriminate|]. destruct (beqb _ _).
      { exfalso. unfold serve_render in Eh. destruct (form_value _ _); [discriminate|]. cbv zeta in Eh. destruct (e_query e _ _) as [recs fails].
        destruct (render_loop _ _ _ _ _) as [[s pa]| | |]; try discriminate. destruct (fails && pa); [discriminate|]. destruct (negb _); [discriminate|].
        destruct (mg_finish _); try discriminate. destruct (beqb (rq_accept r) _); [destruct (forallb _ _); discriminate|].
        destruct (rd_first s); [discriminate|]. destruct (e_measure e _ None) as [[|]| | |]; discriminate. }
      destruct (beqb _ _).
      2:{ destruct (beqb _ _); [discriminate|]. destruct (e_static e); discriminate. }
      unfold serve_query in Eh. cbv zeta in Eh. destruct (search_new _ _) as [s| | |] eqn:Es; try discriminate.
      pose proof (eo_metrics e He) as Bm. destruct (e_metrics e) as [all fails]. cbn [fst] in Bm.
      destruct (search_run all s) as [[go s']| | |] eqn:Er; try discriminate. destruct (fails && go); [discriminate|]. injection Eh as <- <- _.
      eapply search_sub; [exact Er| |exact Bm]. unfold search_new in Es. destruct (_ <? 0); [discriminate|]. injection Es as <-. constructor. }
    now apply C84_names.
  - intros W.
    assert (F : Forall byte metric /\ Forall good cols /\ forallb json_column cols = true /\ (forall l, earliest = Some l -> Forall byte l) /\ window_ok p).
    { unfold serve_http in Eh. match type of Eh with (if ?b then _ else _) = _ => destruct b end; [discriminate|].
      destruct (negb _); [discriminate|]. destruct (beqb _ _).
      2:{ exfalso. destruct (beqb _ _).
          - unfold serve_query in Eh. cbv zeta in Eh. destruct (search_new _ _) as [s| | |]; try discriminate. destruct (e_metrics e) as [all fails].
            destruct (search_run all s) as [[go s']| | |]; try discriminate. destruct (fails && go); discriminate.
          - destruct (beqb _ _); [discriminate|]. destruct (e_static e); discriminate. }
      unfold serve_render in Eh. destruct (form_value (rq_form r) (bytes_of "metric")) as [|c0 ms] eqn:Em; [discriminate|]. cbv zeta in Eh.
      pose proof (form_bytes (rq_form r) (bytes_of "metric") Hr) as Bm. rewrite Em in Bm.
      match type of Eh with context [e_query e ?m ?t] => pose proof (eo_query e He m t) as Bq; destruct (e_query e m t) as [recs fails] end. cbn [fst] in Bq.
      destruct (render_loop _ _ _ _ _) as [[s pa]| | |] eqn:El; try discriminate.
      apply (loop_state _ _ _ He) in El; [|apply Forall_forall, Bq|].
      2:{ split; cbn [rd_merger rd_first option_map]; [|discriminate]. split; cbn [mg_new mg_columns mg_completed]; [constructor|lia]. }
      destruct El as [L1 L2].
      destruct (fails && pa); [discriminate|]. destruct (negb _); [discriminate|].
      destruct (mg_finish (rd_merger s)) as [cs| | |] eqn:Ef; try discriminate. apply finish_good in Ef; [|exact L1].
      destruct (beqb (rq_accept r) _).
      2:{ exfalso. destruct (rd_first s); [discriminate|]. destruct (e_measure e _ None) as [[|]| | |]; discriminate. }
      destruct (forallb json_column cs) eqn:Ej; [|discriminate]. injection Eh as <- <- <- <- <- _.
      split; [exact Bm|]. split; [exact Ef|]. split; [exact Ej|]. split; [exact L2|].
      unfold window_ok. cbn [mp_now mp_dur mp_width mp_height mp_padding].
      split; [apply get_int_i64, (eo_clock e He)|]. split.
      { unfold get_or. destruct (e_duration e _) as [d|] eqn:D; [eapply (eo_duration e He); exact D|unfold is_i64; lia]. }
      repeat split; apply get_int_i64; unfold is_i64; lia. }
    destruct F as (F1 & F2 & F3 & F4 & F5).
    assert (C : Forall column_ok cols).
    { rewrite Forall_forall in *. intros c Hc. destruct (F2 c Hc) as (A1 & A2 & A3 & A4). specialize (W c Hc). unfold column_ok, is_i64. repeat split; try lia. exact A4. }
    destruct cols as [|c1 cols1].
    + destruct (C84_graph json_number_text metric [] earliest p writes F1 C F3 F4 F5) as (v & A & B). exists v. split; [exact A|]. split; [exact B|]. intros X. now contradiction X.
    + destruct (C86_graph metric (c1 :: cols1) earliest p F1 C F3 F4 F5 ltac:(discriminate)) as (v & rest & columns & A & B & D & G).
      exists v. split; [exact A|]. split; [exact B|]. intros _. exists columns, rest. split; assumption.
Qed.
Print Assumptions C92_answers.

(** ** the hypotheses are met: a chart with columns *)
Lemma bytes_check l : forallb (fun b => (0 <=? b) && (b <? 256)) l = true -> Forall byte l.
Proof. rewrite forallb_forall, Forall_forall. intros H b Hb. apply H, andb_true_iff in Hb as [A B]. apply Z.leb_le in A. apply Z.ltb_lt in B. unfold byte. lia. Qed.
Example C92_ex : exists metric cols earliest p, cols <> [] /\ (forall c, In c cols -> col_w c < 2 ^ 63) /\
  env_ok (ex_env None (map ex_buf ex_recs) []) /\ request_ok ex_req /\
  serve (SOpts [] [] []) (ex_env None (map ex_buf ex_recs) []) ex_req = Ok (Resp 200 [42] false (BGraph metric cols earliest p)).
Proof.
  do 4 eexists. split; [|split; [|split; [|split; [|vm_compute; reflexivity]]]].
  - discriminate.
  - intros c H. repeat (destruct H as [<-|H]; [vm_compute; reflexivity|]). destruct H.
  - constructor.
    + intros m t x H. assert (A : forallb (fun x => forallb (fun b => (0 <=? b) && (b <? 256)) (snd x)) (map ex_buf ex_recs) = true) by (vm_compute; reflexivity).
      rewrite forallb_forall in A. now apply bytes_check, A.
    + constructor.
    + unfold is_i64. cbn. lia.
    + intros s d H. cbn in H. injection H as <-. unfold is_i64. lia.
    + intros p r w H. cbn in H. injection H as <-. unfold is_i64. lia.
  - repeat constructor; unfold byte; lia.
Qed.
