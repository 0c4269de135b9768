(** Properties C43, C52 and C53: the HTTP server. *)
From Coq Require Import ZArith List Lia Bool String.
From Coq Require Import Floats.SpecFloat.
From Verif Require Import Base Pb PbRecord Float Merge MergeSpec MergeProofs Query QuerySpec QueryProofs Props_Merge Props_Query Server ServerSpec.
Import ListNotations.
Open Scope Z_scope.

Definition method_get : list Z := bytes_of "GET".
Definition path_render : list Z := bytes_of "/api/render".
Definition path_query : list Z := bytes_of "/api/query".
Definition path_nonce : list Z := bytes_of "/api/nonce".
(** a client that may pass: no username configured, or the configured
    credentials given *)
Definition trusted (o : soptions) (r : request) : Prop :=
  so_user o = [] \/ rq_auth r = Some (so_user o, so_pass o).

(** * C43 *)
(** Without the right credentials the answer is 401 with a challenge, whatever
    the method, the path, the form, the database and the handlers. *)
Theorem C43_denied :
  forall o e r, so_user o <> [] ->
  (forall u p, rq_auth r = Some (u, p) -> e_hash e u <> e_hash e (so_user o) \/ e_hash e p <> e_hash e (so_pass o)) ->
  serve o e r = Ok (Resp 401 (origin_of o) true BError).
Proof.
  intros o e r Hu Ha. unfold serve, serve_http. destruct (so_user o) as [|c u0] eqn:Eu; [contradiction|].
  destruct (rq_auth r) as [[u p]|]; [|reflexivity].
  assert (V : valid_auth o e u p = false).
  { unfold valid_auth. rewrite Eu. apply andb_false_iff. destruct (Ha u p eq_refl) as [H|H]; [left|right];
      (destruct (beqb _ _) eqn:E; [apply beqb_eq in E; contradiction|reflexivity]). }
  rewrite V. reflexivity.
Qed.
(** When the hash does not confuse the given credentials with the configured
    ones, a client is challenged exactly when it is not trusted. *)
Theorem C43_credentials :
  forall o e r rs,
  (forall u p, rq_auth r = Some (u, p) -> (e_hash e u = e_hash e (so_user o) -> u = so_user o) /\ (e_hash e p = e_hash e (so_pass o) -> p = so_pass o)) ->
  serve o e r = Ok rs -> (rs_challenge rs = false <-> trusted o r).
Proof.
  intros o e r rs Hinj E. unfold trusted.
  assert (C : snd (serve_http o e r) = rs_challenge rs).
  { unfold serve in E. destruct (serve_http o e r) as [h ch]. destruct h; try discriminate; injection E as <-; reflexivity. }
  rewrite <- C. unfold serve_http.
  assert (Hd : forall d : bool, snd (if d then (HErr EUnauthorized, true)
    else if negb (beqb (rq_method r) (bytes_of "GET")) then (HErr EMethod, false)
    else if beqb (rq_path r) (bytes_of "/api/render") then (serve_render e r, false)
    else if beqb (rq_path r) (bytes_of "/api/query") then (serve_query e r, false)
    else if beqb (rq_path r) (bytes_of "/api/nonce") then (HOk 200 (BNonce (e_nonce e)), false)
    else match e_static e with Some h => (HOk (h (rq_path r)) BStatic, false) | None => (HErr ENotFound, false) end) = d).
  { intros d. destruct d; [reflexivity|]. repeat (match goal with |- context [if ?b then _ else _] => destruct b end; try reflexivity).
    destruct (e_static e); reflexivity. }
  cbv zeta. rewrite Hd. clear Hd C E. destruct (so_user o) as [|c u0] eqn:Eu; [split; auto|].
  destruct (rq_auth r) as [[u p]|].
  - destruct (Hinj u p eq_refl) as [H1 H2]. rewrite negb_false_iff. unfold valid_auth. rewrite andb_true_iff, !beqb_eq. split.
    + intros [A B]. right. rewrite Eu in A. rewrite (H1 A), (H2 B). reflexivity.
    + intros [X|X]; [discriminate|]. injection X as -> ->. rewrite Eu. auto.
  - split; [discriminate|]. intros [X|X]; discriminate.
Qed.
(** Any method but GET is refused before any handler, whatever they do. *)
Theorem C43_methods :
  forall o e r, trusted o r -> rq_method r <> method_get ->
  serve o e r = Ok (Resp 405 (origin_of o) false BError).
Proof.
  intros o e r Ht Hm. unfold serve, serve_http.
  assert (D : match so_user o with [] => false | _ => match rq_auth r with None => true | Some (u, p) => negb (valid_auth o e u p) end end = false).
  { destruct (so_user o) eqn:Eu; [reflexivity|]. destruct Ht as [H|H]; [congruence|]. rewrite H. unfold valid_auth. rewrite Eu, !beqb_refl. reflexivity. }
  cbv zeta. rewrite D. destruct (beqb (rq_method r) (bytes_of "GET")) eqn:E; [apply beqb_eq in E; contradiction|]. reflexivity.
Qed.
(** An unknown path: 404 when there is no static handler. *)
Theorem C43_unknown_path_partial :
  forall o e r, trusted o r -> rq_method r = method_get -> e_static e = None ->
  rq_path r <> path_render -> rq_path r <> path_query -> rq_path r <> path_nonce ->
  serve o e r = Ok (Resp 404 (origin_of o) false BError).
Proof.
  intros o e r Ht Hm Hs H1 H2 H3. unfold serve, serve_http.
  assert (D : match so_user o with [] => false | _ => match rq_auth r with None => true | Some (u, p) => negb (valid_auth o e u p) end end = false).
  { destruct (so_user o) eqn:Eu; [reflexivity|]. destruct Ht as [H|H]; [congruence|]. rewrite H. unfold valid_auth. rewrite Eu, !beqb_refl. reflexivity. }
  cbv zeta. rewrite D, Hm. unfold method_get. rewrite beqb_refl. cbn [negb].
  destruct (beqb (rq_path r) (bytes_of "/api/render")) eqn:E1; [apply beqb_eq in E1; contradiction|].
  destruct (beqb (rq_path r) (bytes_of "/api/query")) eqn:E2; [apply beqb_eq in E2; contradiction|].
  destruct (beqb (rq_path r) (bytes_of "/api/nonce")) eqn:E3; [apply beqb_eq in E3; contradiction|]. rewrite Hs. reflexivity.
Qed.
(** With a static handler (rothko run always sets one) unknown API paths are
    not 404 but whatever that handler says. *)
Definition ex_env (static : option (list Z -> Z)) (recs : list (Z * Z * list Z)) (names : list (list Z)) : env :=
  Env (fun _ _ => (recs, false)) (names, false) static (fun x => x) [110] 1000 (fun _ => Some 100) (fun _ => None)
    (fun _ => ex_tp) (fun _ => true) (fun _ r => Some (d_dist r)) (fun _ _ => Ok (Some 10)).
Definition ex_opts : soptions := SOpts [] [117] [112].
Theorem C43_unknown_path_refuted :
  exists o e r, trusted o r /\ rq_method r = method_get /\ rq_path r = bytes_of "/api/unknown" /\
  serve o e r = Ok (Resp 200 (origin_of o) false BStatic).
Proof.
  exists ex_opts, (ex_env (Some (fun _ => 200)) [] []), (Req (Some ([117], [112])) method_get (bytes_of "/api/unknown") [] []).
  split; [right; reflexivity|]. repeat split.
Qed.
(** Every answer names the configured origin, "*" when none is. *)
Theorem C43_origin :
  forall o e r rs, serve o e r = Ok rs ->
  (so_origin o <> [] -> rs_origin rs = so_origin o) /\ (so_origin o = [] -> rs_origin rs = [42]).
Proof.
  intros o e r rs E.
  assert (X : rs_origin rs = origin_of o).
  { unfold serve in E. destruct (serve_http o e r) as [h ch]. destruct h; try discriminate; injection E as <-; reflexivity. }
  rewrite X. unfold origin_of. destruct (so_origin o); (split; [intros H|intros H]); try contradiction; try discriminate; reflexivity.
Qed.
Example C43_example :
  trusted ex_opts (Req (Some ([117], [112])) method_get path_nonce [] []) /\
  serve ex_opts (ex_env None [] []) (Req (Some ([117], [112])) method_get path_nonce [] []) = Ok (Resp 200 [42] false (BNonce [110])) /\
  serve ex_opts (ex_env None [] []) (Req (Some ([117], [113])) method_get path_nonce [] []) = Ok (Resp 401 [42] true BError) /\
  serve ex_opts (ex_env None [] []) (Req (Some ([117], [112])) (bytes_of "HEAD") path_nonce [] []) = Ok (Resp 405 [42] false BError).
Proof. split; [right; reflexivity|]. repeat split. Qed.

Lemma route o e r : trusted o r -> rq_method r = method_get ->
  (rq_path r = path_render -> serve_http o e r = (serve_render e r, false)) /\
  (rq_path r = path_query -> serve_http o e r = (serve_query e r, false)).
Proof.
  intros Ht Hm. unfold serve_http.
  assert (D : match so_user o with [] => false | _ => match rq_auth r with None => true | Some (u, p) => negb (valid_auth o e u p) end end = false).
  { destruct (so_user o) eqn:Eu; [reflexivity|]. destruct Ht as [H|H]; [congruence|]. rewrite H. unfold valid_auth. rewrite Eu, !beqb_refl. reflexivity. }
  cbv zeta. rewrite D, Hm. unfold method_get. rewrite beqb_refl. cbn [negb].
  split; intros ->; reflexivity.
Qed.

(** * C52 *)
(** The query endpoint: the first [results] (default 10) of the database's
    names that match every word of the query, in the database's order. *)
Theorem C52_query_partial :
  forall o e r names ok,
  trusted o r -> rq_method r = method_get -> rq_path r = path_query ->
  e_metrics e = (names, false) ->
  let q := form_value (rq_form r) (bytes_of "query") in
  let k := get_int (form_value (rq_form r) (bytes_of "results")) 10 in
  0 <= k -> decides_query q ok ->
  serve o e r = Ok (Resp 200 (origin_of o) false (BNames (firstn (Z.to_nat k) (filter ok names)))).
Proof.
  intros o e r names ok Ht Hm Hp He q k Hk Hok. unfold serve. rewrite (proj2 (route o e r Ht Hm) Hp).
  unfold serve_query. fold q. fold k. destruct (C42_search q k ok names Hk Hok) as (s & go & s' & E1 & E2 & E3).
  rewrite E1, He, E2. cbn [andb]. rewrite E3. reflexivity.
Qed.
(** the value of a form parameter: the first one of that name, empty if none *)
Theorem C52_form :
  forall k a v b, (forall v', ~ In (k, v') a) ->
  form_value (a ++ (k, v) :: b) k = v /\ form_value a k = [].
Proof.
  intros k a v b. induction a as [|[k' v'] a IH]; intros H; cbn [app form_value].
  - rewrite beqb_refl. auto.
  - destruct (beqb k' k) eqn:E; [apply beqb_eq in E; subst k'; exfalso; apply (H v'); now left|].
    apply IH. intros w Hw. apply (H w). now right.
Qed.
(** When reading the names fails, the answer is an internal error, unless the
    search was already full when it asked for another name. *)
Theorem C52_query_database_error :
  forall o e r names ok,
  trusted o r -> rq_method r = method_get -> rq_path r = path_query ->
  e_metrics e = (names, true) ->
  let q := form_value (rq_form r) (bytes_of "query") in
  let k := get_int (form_value (rq_form r) (bytes_of "results")) 10 in
  0 <= k -> decides_query q ok ->
  ((forall a n b, names = a ++ n :: b -> Z.of_nat (List.length (filter ok a)) < k) ->
   serve o e r = Ok (Resp 500 (origin_of o) false BError)) /\
  (forall a n b, names = a ++ n :: b -> k <= Z.of_nat (List.length (filter ok a)) ->
   serve o e r = Ok (Resp 200 (origin_of o) false (BNames (firstn (Z.to_nat k) (filter ok names))))).
Proof.
  intros o e r names ok Ht Hm Hp He q k Hk Hok. unfold serve. rewrite (proj2 (route o e r Ht Hm) Hp).
  unfold serve_query. fold q. fold k. destruct (C42_search q k ok names Hk Hok) as (s & go & s' & E1 & E2 & E3).
  destruct (C42_stops q k ok names Hk Hok) as (s0 & go0 & s0' & F1 & F2 & F3). rewrite E1 in F1. injection F1 as <-. rewrite E2 in F2. injection F2 as <- <-.
  rewrite E1, He, E2. cbn [andb]. split.
  - intros H. destruct go; [reflexivity|]. destruct (proj1 F3 eq_refl) as (a & n & b & Ea & L). specialize (H a n b Ea). lia.
  - intros a n b Ea L. assert (go = false) as -> by (apply F3; eauto). rewrite E3. reflexivity.
Qed.
(** how many results a request asks for: a decimal number, 10 if there is none *)
Theorem C52_results_number :
  forall d, Forall (fun c => 48 <= c <= 57) d -> d <> [] ->
  let n := fold_left (fun a c => a * 10 + (c - 48)) d 0 in
  n < 2 ^ 63 -> get_int d 10 = n /\ get_int [] 10 = 10.
Proof.
  intros d Hd Hne n Hn. split; [|reflexivity].
  assert (Hdig : forall d, Forall (fun c => 48 <= c <= 57) d -> forall a, digits_ a d = Some (fold_left (fun a c => a * 10 + (c - 48)) d a)).
  { clear. induction 1 as [|c d Hc Hd IH]; intros a; [reflexivity|]. cbn [digits_ fold_left].
    replace ((48 <=? c) && (c <=? 57)) with true by lia. apply IH. }
  assert (Hpos : forall d, Forall (fun c => 48 <= c <= 57) d -> forall a, 0 <= a -> 0 <= fold_left (fun a c => a * 10 + (c - 48)) d a).
  { clear. induction 1 as [|c d Hc Hd IH]; intros a Ha; cbn [fold_left]; [assumption|]. apply IH. lia. }
  unfold get_int, parse_int. destruct d as [|c d]; [contradiction|].
  pose proof Hd as Hd'. apply Forall_cons_iff in Hd'. destruct Hd' as [Hc _].
  replace (c =? 43) with false by lia. replace (c =? 45) with false by lia. rewrite (Hdig _ Hd). fold n.
  specialize (Hpos _ Hd 0 ltac:(lia)). fold n in Hpos.
  replace ((- 2 ^ 63 <=? n) && (n <? 2 ^ 63)) with true by lia. reflexivity.
Qed.
(** A request for a negative number of results panics the handler. *)
Theorem C52_query_refuted :
  exists o e r, trusted o r /\ rq_method r = method_get /\ rq_path r = path_query /\ serve o e r = Panic.
Proof.
  exists ex_opts, (ex_env None [] []), (Req (Some ([117], [112])) method_get path_query [(bytes_of "results", bytes_of "-1")] []).
  split; [right; reflexivity|]. repeat split.
Qed.
Example C52_example :
  let r := Req (Some ([117], [112])) method_get path_query [(bytes_of "query", bytes_of "ab c"); (bytes_of "results", bytes_of "2")] [] in
  trusted ex_opts r /\
  serve ex_opts (ex_env None [] [bytes_of "abc"; bytes_of "ab"; bytes_of "c.Ab"; bytes_of "abcd"]) r =
    Ok (Resp 200 [42] false (BNames [bytes_of "abc"; bytes_of "c.Ab"])).
Proof. split; [right; reflexivity|]. vm_compute. reflexivity. Qed.

(** * C53 *)
Lemma mg_pushes_app a b m : mg_pushes (a ++ b) m = do m <- mg_pushes a m; mg_pushes b m.
Proof.
  revert m. induction a as [|r a IH]; intros m; [reflexivity|]. cbn [app mg_pushes]. destruct (mg_push r m); cbn [bind]; auto.
Qed.
(** no record ended before [sb] *)
Definition within (sb : Z) (l : list (Z * Z * list Z)) : bool := forallb (fun x => negb (snd (fst x) <? sb)) l.
Lemma render_rest e p sb f l : forall recs m m', Forall2 holds_record (upto sb l) recs -> mg_pushes recs m = Ok m' ->
  render_loop e p sb l (RState (Some f) true m) = Ok (RState (Some f) true m', within sb l).
Proof.
  induction l as [|[[st fin] buf] l IH]; intros recs m m' F E; cbn [upto render_loop] in *.
  - inversion F; subst. cbn in E. injection E as <-. reflexivity.
  - inversion F as [|? r ? rest H F']; subst. unfold holds_record in H. cbn [fst snd] in *. rewrite H. cbn [bind rd_first rd_ok rd_merger].
    cbn [mg_pushes] in E. destruct (mg_push r m) as [m1| | |] eqn:E1; try discriminate. cbn [bind] in *. cbn [within forallb fst snd].
    destruct (Z.leb_spec sb fin) as [L|L].
    + replace (fin <? sb) with false in * by lia. cbn [negb andb]. eapply IH; eauto.
    + replace (fin <? sb) with true in * by lia. inversion F'; subst. cbn in E. injection E as <-. reflexivity.
Qed.
Lemma render_all e p sb first rest newest drecs w opts m :
  Forall2 holds_record (upto sb (first :: rest)) (newest :: drecs) ->
  e_load e newest = true -> e_measure e p (Some newest) = Ok (Some w) ->
  (do m0 <- mg_set_width w (mg_new opts); mg_pushes (newest :: drecs) m0) = Ok m ->
  render_loop e p sb (first :: rest) (RState None false (mg_new opts)) = Ok (RState (Some (snd first, newest)) true m, within sb (first :: rest)).
Proof.
  intros HF Hl Hw Hc. destruct first as [[st fin] buf].
  cbn [upto] in HF. inversion HF as [|? ? ? ? H F']; subst. unfold holds_record in H. cbn [fst snd] in *.
  destruct (mg_set_width w (mg_new opts)) as [m0| | |] eqn:E0; try discriminate. cbn [bind] in Hc.
  cbn [mg_pushes] in Hc. destruct (mg_push newest m0) as [m1| | |] eqn:E1; try discriminate. cbn [bind] in Hc.
  cbn [render_loop]. rewrite H. cbn [bind rd_first]. rewrite Hl, Hw. cbn [bind]. cbn [rd_merger]. rewrite E0. cbn [bind]. cbn [rd_merger rd_first rd_ok]. rewrite E1. cbn [bind].
  cbn [within forallb fst snd]. destruct (Z.leb_spec sb fin) as [L|L].
  - replace (fin <? sb) with false in * by lia. cbn [negb andb]. eapply render_rest; eauto.
  - replace (fin <? sb) with true in * by lia. inversion F'; subst. cbn in Hc. injection Hc as <-. reflexivity.
Qed.
(** The render endpoint (JSON): when the metric has records, the newest can be
    loaded and measured (giving the width w), the columns are exactly those of
    C39 for the records from the newest to the first that ended before the
    window; the answer repeats the request's window and the newest record. *)
Theorem C53_render_partial :
  forall o e r recs first rest newest drecs w cols,
  let f := form_value (rq_form r) in
  let metric := f (bytes_of "metric") in
  let now := get_int (f (bytes_of "now")) (e_clock e) in
  let dur := get_or (e_duration e) (f (bytes_of "duration")) (24 * 3600 * 1000000000) in
  let p := MParams now dur (get_int (f (bytes_of "width")) 1000) (get_int (f (bytes_of "height")) 350) (get_int (f (bytes_of "padding")) 0) in
  let opts := MOpts now dur (e_params e (get_or (e_float e) (f (bytes_of "compression")) 0x4014000000000000))
                (e_sample e (get_int (f (bytes_of "samples")) 30)) in
  trusted o r -> rq_method r = method_get -> rq_path r = path_render -> rq_accept r = bytes_of "application/json" ->
  metric <> [] -> is_i64 (now - dur) ->
  e_query e metric now = (recs, false) -> recs = first :: rest ->
  Forall2 holds_record (upto (now - dur) recs) (newest :: drecs) ->
  e_load e newest = true -> e_measure e p (Some newest) = Ok (Some w) ->
  mg_render opts w (newest :: drecs) = Ok cols -> forallb json_column cols = true ->
  serve o e r = Ok (Resp 200 (origin_of o) false (BGraph metric cols (Some (snd first)) p)).
Proof.
  intros o e r recs first rest newest drecs w cols f metric now dur p opts Ht Hm Hp Ha Hme Hi Hq Hr HF Hl Hw Hc Hj.
  unfold serve. rewrite (proj1 (route o e r Ht Hm) Hp). unfold serve_render. fold f. fold metric.
  fold now. fold dur. fold p. fold opts. rewrite (i64_id _ Hi). rewrite Hq. subst recs.
  unfold mg_render in Hc. destruct (do m0 <- mg_set_width w (mg_new opts); mg_pushes (newest :: drecs) m0) as [m| | |] eqn:Em;
    [|destruct (mg_set_width w (mg_new opts)); cbn [bind] in *; try rewrite Em in Hc; discriminate..].
  assert (Hc' : mg_finish m = Ok cols) by (destruct (mg_set_width w (mg_new opts)); cbn [bind] in *; try discriminate; rewrite Em in Hc; exact Hc).
  rewrite (render_all e p (now - dur) first rest newest drecs w opts m HF Hl Hw Em). cbn [andb rd_ok negb rd_merger rd_first]. rewrite Hc', Ha, beqb_refl, Hj.
  destruct metric as [|c ms]; [contradiction|]. reflexivity.
Qed.
(** Asked for anything but JSON, the same columns are drawn into an image. *)
Theorem C53_image_partial :
  forall o e r recs first rest newest drecs w cols,
  let f := form_value (rq_form r) in
  let metric := f (bytes_of "metric") in
  let now := get_int (f (bytes_of "now")) (e_clock e) in
  let dur := get_or (e_duration e) (f (bytes_of "duration")) (24 * 3600 * 1000000000) in
  let p := MParams now dur (get_int (f (bytes_of "width")) 1000) (get_int (f (bytes_of "height")) 350) (get_int (f (bytes_of "padding")) 0) in
  let opts := MOpts now dur (e_params e (get_or (e_float e) (f (bytes_of "compression")) 0x4014000000000000))
                (e_sample e (get_int (f (bytes_of "samples")) 30)) in
  trusted o r -> rq_method r = method_get -> rq_path r = path_render -> rq_accept r <> bytes_of "application/json" ->
  metric <> [] -> is_i64 (now - dur) ->
  e_query e metric now = (recs, false) -> recs = first :: rest ->
  Forall2 holds_record (upto (now - dur) recs) (newest :: drecs) ->
  e_load e newest = true -> e_measure e p (Some newest) = Ok (Some w) ->
  mg_render opts w (newest :: drecs) = Ok cols ->
  serve o e r = Ok (Resp 200 (origin_of o) false (BImage cols (Some (snd first)) p)).
Proof.
  intros o e r recs first rest newest drecs w cols f metric now dur p opts Ht Hm Hp Ha Hme Hi Hq Hr HF Hl Hw Hc.
  unfold serve. rewrite (proj1 (route o e r Ht Hm) Hp). unfold serve_render. fold f. fold metric.
  fold now. fold dur. fold p. fold opts. rewrite (i64_id _ Hi). rewrite Hq. subst recs.
  unfold mg_render in Hc. destruct (do m0 <- mg_set_width w (mg_new opts); mg_pushes (newest :: drecs) m0) as [m| | |] eqn:Em;
    [|destruct (mg_set_width w (mg_new opts)); cbn [bind] in *; try rewrite Em in Hc; discriminate..].
  assert (Hc' : mg_finish m = Ok cols) by (destruct (mg_set_width w (mg_new opts)); cbn [bind] in *; try discriminate; rewrite Em in Hc; exact Hc).
  rewrite (render_all e p (now - dur) first rest newest drecs w opts m HF Hl Hw Em). cbn [andb rd_ok negb rd_merger rd_first]. rewrite Hc'.
  destruct (beqb (rq_accept r) (bytes_of "application/json")) eqn:E; [apply beqb_eq in E; contradiction|].
  destruct metric as [|c ms]; [contradiction|]. reflexivity.
Qed.
(** The records could not all be read: an internal error, whatever was read. *)
Theorem C53_database_error :
  forall o e r recs,
  let f := form_value (rq_form r) in
  let metric := f (bytes_of "metric") in
  let now := get_int (f (bytes_of "now")) (e_clock e) in
  let dur := get_or (e_duration e) (f (bytes_of "duration")) (24 * 3600 * 1000000000) in
  trusted o r -> rq_method r = method_get -> rq_path r = path_render ->
  metric <> [] -> is_i64 (now - dur) ->
  e_query e metric now = (recs, true) ->
  (forall x, In x recs -> now - dur <= snd (fst x)) ->
  (forall p x, exists w, e_measure e p x = Ok (Some w)) ->
  serve o e r = Ok (Resp 500 (origin_of o) false BError) \/ serve o e r = Panic.
Proof.
  intros o e r recs f metric now dur Ht Hm Hp Hme Hi Hq Hin Hms.
  unfold serve. rewrite (proj1 (route o e r Ht Hm) Hp). unfold serve_render. fold f. fold metric.
  fold now. fold dur. rewrite (i64_id _ Hi). rewrite Hq.
  destruct metric as [|c ms]; [contradiction|]. clear Hme Hq.
  match goal with |- context [render_loop e ?p ?sb recs ?st0] => generalize st0; intros s0;
    assert (L : forall s, match render_loop e p sb recs s with Ok (_, b) => b = true | _ => True end) end.
  { induction recs as [|[[st fin] buf] l IH]; intros s; cbn [render_loop]; [reflexivity|].
    destruct (drec_unmarshal buf) as [rec| | |]; cbn [bind]; try exact I.
    assert (Lf : (now - dur <=? fin) = true) by (specialize (Hin (st, fin, buf) (or_introl eq_refl)); cbn in Hin; lia).
    assert (IH' := IH (fun x H => Hin x (or_intror H))). clear IH Hin.
    destruct (rd_first s); cbn [bind].
    - destruct (mg_push rec (rd_merger s)); cbn [bind]; try exact I. rewrite Lf. apply IH'.
    - destruct (e_load e rec); cbn [bind]; [|exact I]. match goal with |- context [e_measure e ?p ?x] => destruct (Hms p x) as (w & ->) end. cbn [bind].
      destruct (mg_set_width w (rd_merger s)); cbn [bind]; try exact I. cbn [rd_merger rd_first rd_ok].
      destruct (mg_push rec _); cbn [bind]; try exact I. rewrite Lf. apply IH'. }
  specialize (L s0). destruct (render_loop _ _ _ _ _) as [[s1 b]| | |]; auto. subst b. left. reflexivity.
Qed.
(** Without a metric the request is bad. *)
Theorem C53_no_metric :
  forall o e r, trusted o r -> rq_method r = method_get -> rq_path r = path_render ->
  form_value (rq_form r) (bytes_of "metric") = [] ->
  serve o e r = Ok (Resp 400 (origin_of o) false BError).
Proof.
  intros o e r Ht Hm Hp Hf. unfold serve. rewrite (proj1 (route o e r Ht Hm) Hp). unfold serve_render. rewrite Hf. reflexivity.
Qed.
(** A metric without records is an internal error ("too small") instead of an
    empty graph, for every environment. *)
Theorem C53_no_data_refuted :
  forall o e r, trusted o r -> rq_method r = method_get -> rq_path r = path_render ->
  let metric := form_value (rq_form r) (bytes_of "metric") in
  metric <> [] -> (forall now, e_query e metric now = ([], false)) ->
  serve o e r = Ok (Resp 500 (origin_of o) false BError).
Proof.
  intros o e r Ht Hm Hp metric Hme Hq. unfold serve. rewrite (proj1 (route o e r Ht Hm) Hp). unfold serve_render. fold metric.
  destruct metric as [|c ms] eqn:E; [contradiction|]. rewrite Hq. reflexivity.
Qed.
(** One record with a merge count of 0 or without duration makes the JSON
    answer an internal error: its rate is not a number JSON can carry. *)
Definition ex_req : request :=
  Req None method_get path_render [(bytes_of "metric", [109])] (bytes_of "application/json").
Definition ex_buf (rec : drecord) : Z * Z * list Z := (d_start rec, d_end rec, drec_marshal rec).
Theorem C53_rate_refuted :
  exists o e r buf rec, trusted o r /\ rq_method r = method_get /\ rq_path r = path_render /\
  e_query e [109] 1000 = ([buf], false) /\ holds_record buf rec /\ d_start rec < d_end rec < 1000 /\ 0 < d_obs rec /\
  e_load e rec = true /\ (forall p x, e_measure e p x = Ok (Some 10)) /\
  serve o e r = Ok (Resp 500 (origin_of o) false BError).
Proof.
  exists (SOpts [] [] []), (ex_env None [ex_buf (DRec 950 990 4 [1] s_tdigest mg_f3 mg_f5 [77] [88] 0)] []), ex_req.
  eexists. eexists. split; [left; reflexivity|]. split; [reflexivity|]. split; [reflexivity|]. split; [reflexivity|].
  split; [vm_compute; reflexivity|]. split; [cbn; lia|]. split; [cbn; lia|]. split; [reflexivity|]. split; [reflexivity|].
  vm_compute. reflexivity.
Qed.
Example C53_example :
  let e := ex_env None (map ex_buf ex_recs) [] in
  serve (SOpts [] [] []) e ex_req =
    match mg_render (MOpts 1000 100 ex_tp (fun r => Some (d_dist r))) 10 ex_recs with
    | Ok cols => Ok (Resp 200 [42] false (BGraph [109] cols (Some (drec_marshal (ex_rec 970 990 1))) (MParams 1000 100 1000 350 0)))
    | _ => Panic
    end /\
  Forall2 holds_record (upto 900 (map ex_buf ex_recs)) ex_recs.
Proof.
  split; [vm_compute; reflexivity|]. cbn [map ex_recs ex_buf upto snd fst ex_rec d_start d_end]. 
  change (990 <? 900) with false. change (975 <? 900) with false. change (920 <? 900) with false. cbn match.
  repeat constructor; vm_compute; reflexivity.
Qed.

Definition ex_env_failing : env :=
  Env (fun _ _ => (map ex_buf ex_recs, true)) ([[97]; [98]; [99]], true) None (fun x => x) [110] 1000 (fun _ => Some 100) (fun _ => None)
    (fun _ => ex_tp) (fun _ => true) (fun _ r => Some (d_dist r)) (fun _ _ => Ok (Some 10)).
Example C53_error_example :
  serve (SOpts [] [] []) ex_env_failing ex_req = Ok (Resp 500 [42] false BError) /\
  (forall x, In x (map ex_buf ex_recs) -> 1000 - 100 <= snd (fst x)).
Proof.
  split; [vm_compute; reflexivity|]. intros x Hin. cbn [map ex_recs In] in Hin.
  repeat (destruct Hin as [<-|Hin]; [cbn; lia|]); destruct Hin.
Qed.
Example C53_image_example :
  match serve (SOpts [] [] []) (ex_env None (map ex_buf ex_recs) []) (Req None method_get path_render [(bytes_of "metric", [109])] []) with
  | Ok (Resp 200 _ _ (BImage cols _ _)) => mg_render (MOpts 1000 100 ex_tp (fun r => Some (d_dist r))) 10 ex_recs = Ok cols
  | _ => False
  end.
Proof. vm_compute. reflexivity. Qed.
(** three names, reading them fails: an error for ten results, none for one *)
Example C52_error_example :
  let r k := Req None method_get path_query [(bytes_of "results", bytes_of k)] [] in
  serve (SOpts [] [] []) ex_env_failing (r "10"%string) = Ok (Resp 500 [42] false BError) /\
  serve (SOpts [] [] []) ex_env_failing (r "1"%string) = Ok (Resp 200 [42] false (BNames [[97]])).
Proof. split; vm_compute; reflexivity. Qed.

Print Assumptions C43_denied.
Print Assumptions C43_credentials.
Print Assumptions C43_methods.
Print Assumptions C43_unknown_path_partial.
Print Assumptions C52_query_partial.
Print Assumptions C53_render_partial.
Print Assumptions C53_no_data_refuted.
Print Assumptions C53_image_partial.
Print Assumptions C53_database_error.
Print Assumptions C53_no_metric.
Print Assumptions C52_query_database_error.
Print Assumptions C52_form.
Print Assumptions C43_origin.
