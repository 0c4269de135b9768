(** Property C47 (configuration acceptance, redaction) and C58 (start-up). *)
From Coq Require Import ZArith List Lia Bool Permutation Setoid.
From Verif Require Import Base Maps Typeassert TypeassertSpec Props_Typeassert Registry Props_Registry Config Run.
Import ListNotations.
Open Scope Z_scope.

Lemma len1 {A} (l : list A) : len l = 1 <-> exists a, l = [a].
Proof.
  split.
  - destruct l as [|a [|b l]]; unfold len; cbn [length]; intros H; try lia. eauto.
  - intros [a ->]. reflexivity.
Qed.

(** * C47: a configuration is accepted iff it decodes and names exactly one
    database and exactly one distribution; otherwise it is refused with an error *)
Theorem C47_accepted : forall decode data,
  ((exists c, load decode data = Ok c) <->
   exists t, decode data = Some t /\ (exists d, t_database t = [d]) /\ (exists s, t_dist t = [s])) /\
  ((exists c, load decode data = Ok c) \/ load decode data = Err).
Proof.
  intros decode data. unfold load. destruct (decode data) as [t|].
  - destruct (Z.eqb_spec (len (t_database t)) 1) as [Hd|Hd]; cbn [negb].
    + destruct (Z.eqb_spec (len (t_dist t)) 1) as [Hs|Hs]; cbn [negb].
      * apply len1 in Hd, Hs. split; [|eauto]. split; [|eauto]. intros _. exists t. auto.
      * split; [|auto]. split; [intros [c H]; discriminate|]. intros (t' & E & _ & H). injection E as <-. apply len1 in H. congruence.
    + split; [|auto]. split; [intros [c H]; discriminate|]. intros (t' & E & H & _). injection E as <-. apply len1 in H. congruence.
  - split; [|auto]. split; [intros [c H]; discriminate|]. intros (t' & E & _). discriminate.
Qed.
Print Assumptions C47_accepted.

(** the configurations of the listeners of one kind *)
Definition of_kind (k : list Z) (l : list entity) : list value :=
  map e_config (filter (fun e => beqb k (e_kind e)) l).

Lemma of_kind_app k a b : of_kind k (a ++ b) = of_kind k a ++ of_kind k b.
Proof. unfold of_kind. rewrite filter_app. apply map_app. Qed.
Lemma of_kind_same k l : of_kind k (map (fun c => {| e_kind := k; e_config := c |}) l) = l.
Proof. unfold of_kind. induction l as [|c l IH]; cbn; [reflexivity|]. rewrite beqb_refl. cbn. now rewrite IH. Qed.
Lemma of_kind_other k k' l : k <> k' -> of_kind k (map (fun c => {| e_kind := k'; e_config := c |}) l) = [].
Proof. intros H. unfold of_kind. apply beqb_neq in H. induction l as [|c l IH]; cbn; [reflexivity|]. rewrite H. exact IH. Qed.

Lemma of_kind_listeners k : forall m, NoDup (map fst m) ->
  of_kind k (listener_entities m) = match mget beqb k m with Some l => l | None => [] end.
Proof.
  induction m as [|[k' l] m IH]; intros H; [reflexivity|]. cbn [map fst] in H. inversion H as [|? ? Hn Hd]; subst.
  unfold listener_entities. cbn [flat_map fst snd mget]. rewrite of_kind_app. fold (listener_entities m). rewrite (IH Hd).
  destruct (beqb k k') eqn:E.
  - apply beqb_eq in E. subst k'. rewrite of_kind_same.
    destruct (mget beqb k m) as [l'|] eqn:Em; [|apply app_nil_r]. exfalso. apply Hn.
    clear - Em. induction m as [|[a b] m IH]; cbn in *; [discriminate|]. destruct (beqb k a) eqn:E; [left; symmetry; now apply beqb_eq|auto].
  - apply beqb_neq in E. rewrite of_kind_other by assumption. reflexivity.
Qed.

(** an accepted configuration is what the document says: the one database, the
    one distribution, all the other fields, and for every kind of listener its
    configurations in order *)
Theorem C47_contents : forall decode data t c, decode data = Some t -> NoDup (map fst (t_listeners t)) ->
  load decode data = Ok c ->
  t_database t = [(e_kind (database c), e_config (database c))] /\
  t_dist t = [(e_kind (dist c), e_config (dist c))] /\
  duration c = t_duration t /\ plugins c = t_plugins t /\
  (forall k, of_kind k (listeners c) = match mget beqb k (t_listeners t) with Some l => l | None => [] end) /\
  address (api c) = t_address t /\ origin (api c) = t_origin t /\
  tls_key (api c) = t_key t /\ tls_cert (api c) = t_cert t /\
  username (api c) = t_username t /\ password (api c) = t_password t.
Proof.
  intros decode data t c E Hn. unfold load. rewrite E.
  destruct (Z.eqb_spec (len (t_database t)) 1) as [Hd|]; cbn [negb]; [|discriminate].
  destruct (Z.eqb_spec (len (t_dist t)) 1) as [Hs|]; cbn [negb]; [|discriminate].
  intros H. injection H as <-. cbn [database dist duration plugins listeners api address origin tls_key tls_cert username password].
  apply len1 in Hd as [[dk dv] ->]. apply len1 in Hs as [[sk sv] ->].
  repeat split. intros k. now apply of_kind_listeners.
Qed.
Print Assumptions C47_contents.

(** the order in which the listener kinds are visited (Go's map order) only
    permutes the listeners *)
Theorem C47_order : forall m m', Permutation m m' -> Permutation (listener_entities m) (listener_entities m').
Proof. intros m m' H. unfold listener_entities. now apply Permutation_flat_map. Qed.
Print Assumptions C47_order.

Definition ex_toml : toml_config := {| t_duration := 600000000000; t_plugins := [];
  t_listeners := [(n_graphite, [VMap [(k_address, VStr [58;49])]; VMap [(k_address, VStr [58;50])]])];
  t_database := [(n_files, VMap [(k_directory, VStr [100]); (k_size, VInt64 256)])];
  t_dist := [(n_tdigest, VMap [(k_compression, VFloat 4617315517961601024)])];
  t_address := [58;56]; t_origin := [42]; t_key := []; t_cert := []; t_username := [97]; t_password := [98;99] |}.
Example C47_accepted_ex : exists c, load (fun _ => Some ex_toml) [] = Ok c /\ len (listeners c) = 2 /\
  e_kind (database c) = n_files /\ password (api c) = [98;99].
Proof. eexists. split; [reflexivity|]. cbn. auto. Qed.

(** the redacted form is a function of the address and the origin alone: no
    configured user name, password, TLS key or certificate can be learnt from it *)
Theorem C47_redact : forall a b, address a = address b -> origin a = origin b ->
  redact a = redact b /\ address (redact a) = address a /\ origin (redact a) = origin a.
Proof. intros a b H1 H2. unfold redact. rewrite H1, H2. auto. Qed.
Print Assumptions C47_redact.

(** two configurations that differ at most in the secrets of the api section *)
Definition same_but_secrets (c c' : config) : Prop :=
  duration c = duration c' /\ plugins c = plugins c' /\ listeners c = listeners c' /\ database c = database c' /\
  dist c = dist c' /\ address (api c) = address (api c') /\ origin (api c) = origin (api c').

(** nothing of the api secrets shows in the log of a start-up, whatever happens *)
Theorem C47_logs : forall open ui_ok r c c', same_but_secrets c c' ->
  snd (run open ui_ok r c) = snd (run open ui_ok r c').
Proof.
  intros open ui r c c' (E1 & E2 & E3 & E4 & E5 & E6 & E7).
  assert (E8 : redact (api c) = redact (api c')) by now apply C47_redact.
  unfold run. rewrite E2, E3, E4, E5, E8.
  destruct (load_plugins open (plugins c') r []) as [[r1| | |] log]; try reflexivity.
  destruct (new KDatabase (e_kind (database c')) (e_config (database c')) r1) as [[db| | |] r2]; try reflexivity.
  destruct (new KDist (e_kind (dist c')) (e_config (dist c')) r2) as [[ps| | |] r3]; try reflexivity.
  destruct ui; [|reflexivity].
  destruct (make_listeners _ _ _ _) as [[ls| | |] lg]; reflexivity.
Qed.
Print Assumptions C47_logs.

(** only the api section is redacted: the database configuration is logged as it is *)
Theorem C47_database_config_logged : forall open ui_ok r c, plugins c = [] ->
  In (LDatabase (database c)) (snd (run open ui_ok r c)).
Proof.
  intros open ui r c Hp. unfold run. rewrite Hp. cbn [load_plugins app].
  assert (ML : forall es r log acc x, In x log -> In x (snd (make_listeners es r log acc))).
  { clear. induction es as [|e es IH]; intros r log acc x H; cbn [make_listeners]; [exact H|].
    assert (H' : In x (log ++ [LListener e])) by (apply in_or_app; now left).
    destruct (new _ _ _ r) as [[y| | |] r']; cbn [snd]; auto. }
  destruct (new KDatabase (e_kind (database c)) (e_config (database c)) r) as [[db| | |] r2]; try (now left).
  destruct (new KDist (e_kind (dist c)) (e_config (dist c)) r2) as [[ps| | |] r3]; try (now left).
  cbn [app]. destruct ui; [|now left].
  pose proof (ML (listeners c) r3 [LDatabase (database c); LDist (dist c); LApi (redact (api c))] [] (LDatabase (database c)) (or_introl eq_refl)) as H.
  destruct (make_listeners _ _ _ _) as [[ls| | |] lg]; exact H.
Qed.
Print Assumptions C47_database_config_logged.

(** * C58: start-up *)
(** the registrations in force once the plugins are open *)
Fixpoint plugin_regs (open : list Z -> option (list (rop value component))) (ps : list (list Z)) : list (rop value component) :=
  match ps with
  | [] => []
  | p :: r => match open p with Some l => l | None => [] end ++ plugin_regs open r
  end.
Definition in_force open (c : config) := inits ++ plugin_regs open (plugins c).

(** the most recent maker for the entity's kind makes [x] of its configuration *)
Definition makes (h : list (rop value component)) (k : kind) (e : entity) (x : component) : Prop :=
  exists m, latest h k (e_kind e) m /\ m (e_config e) = Ret (Ok x).

Lemma rrun_app {C T} (l1 l2 : list (rop C T)) r : rrun (l1 ++ l2) r = rrun l2 (rrun l1 r).
Proof. revert r. induction l1; intros; cbn; auto. Qed.

Lemma load_plugins_ok open ps : forall h log, (forall p, In p ps -> open p <> None) ->
  fst (load_plugins open ps (rrun h reg0) log) = Ok (rrun (h ++ plugin_regs open ps) reg0).
Proof.
  induction ps as [|p ps IH]; intros h log H; cbn [load_plugins plugin_regs].
  - now rewrite app_nil_r.
  - destruct (open p) as [l|] eqn:E; [|exfalso; eapply H; [left; reflexivity|exact E]].
    rewrite <- rrun_app, IH by (intros q Hq; apply H; now right). rewrite <- app_assoc. reflexivity.
Qed.
Lemma load_plugins_err open ps : forall r log, (exists p, In p ps /\ open p = None) ->
  fst (load_plugins open ps r log) = Err.
Proof.
  induction ps as [|p ps IH]; intros r log (q & Hq & E); [destruct Hq|]. cbn [load_plugins].
  destruct (open p) as [l|] eqn:Ep; [|reflexivity]. apply IH. exists q. split; [|exact E]. destruct Hq as [->|Hq]; [congruence|exact Hq].
Qed.
Lemma plugins_dec open ps : (forall p : list Z, In p ps -> open p <> @None (list (rop value component))) \/ exists p, In p ps /\ open p = None.
Proof.
  induction ps as [|p ps [IH|(q & Hq & E)]]; [left; intros ? []| |right; exists q; split; [now right|exact E]].
  destruct (open p) eqn:E; [left|right; exists p; split; [now left|exact E]]. intros q [<-|Hq]; [congruence|auto].
Qed.

Lemma latest_unique {C T} (l : list (rop C T)) k n m m' : makers_return l -> latest l k n m -> latest l k n m' -> forall c, m c = m' c.
Proof.
  intros Hm H H' c. destruct (C48_latest_wins C T l k n c Hm) as [A _]. rewrite <- (A m H), <- (A m' H'). reflexivity.
Qed.

Lemma new_makes h k e : makers_return h -> exists x, new k (e_kind e) (e_config e) (rrun h reg0) = (x, rrun h reg0) /\
  (forall c, x = Ok c <-> makes h k e c) /\
  ((forall m, (exists n, In (Reg k n m) h) -> m (e_config e) <> Ret Panic) -> x = Err \/ exists c, x = Ok c).
Proof.
  intros Hm. pose proof (C48_latest_wins _ _ h k (e_kind e) (e_config e) Hm) as [A B].
  pose proof (C48_new_pure _ _ h k (e_kind e) (e_config e) Hm) as P.
  destruct (new k (e_kind e) (e_config e) (rrun h reg0)) as [x r]. cbn [fst snd] in *. subst r. exists x. split; [reflexivity|].
  destruct (C48_cases _ _ h k (e_kind e)) as [Hn|[m Hl]].
  - rewrite (B Hn). split; [|auto]. intros c. split; [discriminate|]. intros (m & (l1 & l2 & -> & _) & _). exfalso. eapply (Hn m). apply in_or_app. right. left. reflexivity.
  - specialize (A m Hl). assert (Hin : exists n, In (Reg k n m) h).
    { destruct Hl as (l1 & l2 & -> & _). eexists. apply in_or_app. right. left. reflexivity. }
    split.
    + intros c. split.
      * intros ->. exists m. auto.
      * intros (m' & Hl' & E). rewrite <- (latest_unique h _ _ m m' Hm Hl Hl'), <- A in E. congruence.
    + intros Hp. specialize (Hp m Hin). destruct Hin as [n Hin]. destruct (Hm _ _ _ Hin (e_config e)) as (y & Ey & Ny). rewrite <- A in *.
      injection Ey as <-. destruct x; eauto; congruence.
Qed.

Lemma make_listeners_spec h : makers_return h -> forall es log acc,
  let r := fst (make_listeners es (rrun h reg0) log acc) in
  (forall cs, r = Ok cs <-> exists new, cs = acc ++ new /\ Forall2 (makes h KListener) es new) /\
  ((forall e m, In e es -> (exists n, In (Reg KListener n m) h) -> m (e_config e) <> Ret Panic) -> r = Err \/ exists c, r = Ok c).
Proof.
  intros Hm. induction es as [|e es IH]; intros log acc; cbn [make_listeners].
  - cbn. split; [|eauto]. intros cs. split.
    + intros H. injection H as <-. exists []. rewrite app_nil_r. auto.
    + intros (n & -> & F). inversion F. now rewrite app_nil_r.
  - destruct (new_makes h KListener e Hm) as (x & E & A & B). rewrite E.
    destruct x as [c| | |].
    + destruct (IH (log ++ [LListener e]) (acc ++ [c])) as [C D]. cbn zeta in *. split; [|intros Hp; apply D; intros e' m' He'; apply Hp; now right]. intros cs. rewrite C. split.
      * intros (n & -> & F). exists (c :: n). rewrite <- app_assoc. split; [reflexivity|]. constructor; [now apply A|exact F].
      * intros (n & -> & F). inversion F as [|? c' ? n' M F']; subst. apply A in M. injection M as <-. exists n'. rewrite <- app_assoc. auto.
    + cbn. split; [|auto]. intros cs. split; [discriminate|]. intros (n & -> & F). inversion F as [|? c' ? n' M F']; subst. apply A in M. discriminate.
    + cbn. split; [|intros Hp; destruct (B (fun m => Hp e m (or_introl eq_refl))) as [?|[? ?]]; discriminate]. intros cs. split; [discriminate|]. intros (n & -> & F). inversion F as [|? c' ? n' M F']; subst. apply A in M. discriminate.
    + cbn. split; [|intros Hp; destruct (B (fun m => Hp e m (or_introl eq_refl))) as [?|[? ?]]; discriminate]. intros cs. split; [discriminate|]. intros (n & -> & F). inversion F as [|? c' ? n' M F']; subst. apply A in M. discriminate.
Qed.

(** no maker panics on the configurations it would be given *)
Definition used (conf : config) (k : kind) (cf : value) : Prop :=
  match k with
  | KDatabase => cf = e_config (database conf)
  | KDist => cf = e_config (dist conf)
  | KListener => exists e, In e (listeners conf) /\ cf = e_config e
  end.
Definition no_panics (h : list (rop value component)) (conf : config) : Prop := forall k n m cf, In (Reg k n m) h -> used conf k cf -> m cf <> Ret Panic.

(** the services are started iff every plugin opens and the database, the
    distribution and every listener can be made, each by the maker most
    recently registered for it; what is started is exactly what was made, the
    listeners in order; otherwise nothing is started and an error is returned *)
Theorem C58_start : forall open ui_ok conf, let h := in_force open conf in makers_return h ->
  (forall g, fst (run open ui_ok (rrun inits reg0) conf) = Ok g <->
    (forall p, In p (plugins conf) -> open p <> None) /\ ui_ok = true /\
    makes h KDatabase (database conf) (g_db g) /\ makes h KDist (dist conf) (g_params g) /\
    Forall2 (makes h KListener) (listeners conf) (g_listeners g) /\
    g_period g = duration conf /\ g_api g = api conf) /\
  (no_panics h conf -> fst (run open ui_ok (rrun inits reg0) conf) = Err \/ exists g, fst (run open ui_ok (rrun inits reg0) conf) = Ok g).
Proof.
  intros open ui conf h Hm. unfold run.
  destruct (plugins_dec open (plugins conf)) as [Hp|Hp].
  2:{ pose proof (load_plugins_err open (plugins conf) (rrun inits reg0) [] Hp) as E.
      destruct (load_plugins _ _ _ _) as [x log]. cbn [fst] in E. subst x. cbn [fst]. split; [|auto].
      intros g. split; [discriminate|]. intros (H & _). destruct Hp as (p & Hin & En). exfalso. eapply H; eauto. }
  pose proof (load_plugins_ok open (plugins conf) inits [] Hp) as E. fold h in E.
  change (inits ++ plugin_regs open (plugins conf)) with h in E.
  destruct (load_plugins _ _ _ _) as [x log]. cbn [fst] in E. subst x.
  destruct (new_makes h KDatabase (database conf) Hm) as (x & E1 & A1 & B1). rewrite E1.
  assert (NP : no_panics h conf -> forall k m cf, used conf k cf -> (exists n, In (Reg k n m) h) -> m cf <> Ret Panic) by (intros N k m cf U [n Hn]; eapply N; eauto).
  destruct x as [db| | |].
  2:{ cbn [fst]. split; [|auto]. intros g. split; [discriminate|]. intros (_ & _ & M & _). apply A1 in M. discriminate. }
  2:{ cbn [fst]. split; [|intros N; destruct (B1 (fun m => NP N KDatabase m _ eq_refl)) as [?|[? ?]]; discriminate]. intros g. split; [discriminate|]. intros (_ & _ & M & _). apply A1 in M. discriminate. }
  2:{ cbn [fst]. split; [|intros N; destruct (B1 (fun m => NP N KDatabase m _ eq_refl)) as [?|[? ?]]; discriminate]. intros g. split; [discriminate|]. intros (_ & _ & M & _). apply A1 in M. discriminate. }
  destruct (new_makes h KDist (dist conf) Hm) as (y & E2 & A2 & B2). rewrite E2. destruct y as [ps| | |].
  2:{ cbn [fst]. split; [|auto]. intros g. split; [discriminate|]. intros (_ & _ & _ & M & _). apply A2 in M. discriminate. }
  2:{ cbn [fst]. split; [|intros N; destruct (B2 (fun m => NP N KDist m _ eq_refl)) as [?|[? ?]]; discriminate]. intros g. split; [discriminate|]. intros (_ & _ & _ & M & _). apply A2 in M. discriminate. }
  2:{ cbn [fst]. split; [|intros N; destruct (B2 (fun m => NP N KDist m _ eq_refl)) as [?|[? ?]]; discriminate]. intros g. split; [discriminate|]. intros (_ & _ & _ & M & _). apply A2 in M. discriminate. }
  destruct ui.
  2:{ cbn [fst]. split; [|auto]. intros g. split; [discriminate|]. intros (_ & U & _). discriminate. }
  pose proof (make_listeners_spec h Hm (listeners conf) (((log ++ [LDatabase (database conf)]) ++ [LDist (dist conf)]) ++ [LApi (redact (api conf))]) []) as [A3 B3].
  cbn [app] in A3. cbn zeta in A3, B3. destruct (make_listeners _ _ _ _) as [z lg]. cbn [fst] in A3, B3.
  destruct z as [ls| | |]; cbn [fst].
  2:{ split; [|auto]. intros g. split; [discriminate|]. intros (_ & _ & _ & _ & M & _). assert (X : Err = Ok (g_listeners g)) by (apply A3; eauto). discriminate. }
  2:{ split; [|intros N; destruct (B3 (fun e m He => NP N KListener m _ (ex_intro _ e (conj He eq_refl)))) as [?|[? ?]]; discriminate]. intros g. split; [discriminate|]. intros (_ & _ & _ & _ & M & _). assert (X : Panic = Ok (g_listeners g)) by (apply A3; eauto). discriminate. }
  2:{ split; [|intros N; destruct (B3 (fun e m He => NP N KListener m _ (ex_intro _ e (conj He eq_refl)))) as [?|[? ?]]; discriminate]. intros g. split; [discriminate|]. intros (_ & _ & _ & _ & M & _). assert (X : Diverge = Ok (g_listeners g)) by (apply A3; eauto). discriminate. }
  split; [|eauto]. intros g. split.
  - intros H. injection H as <-. cbn [g_db g_params g_listeners g_period g_api].
    split; [assumption|]. split; [reflexivity|]. split; [now apply A1|]. split; [now apply A2|]. split; [|auto].
    destruct (proj1 (A3 ls) eq_refl) as (n & -> & F). exact F.
  - intros (_ & _ & M1 & M2 & M3 & P1 & P2). apply A1 in M1. apply A2 in M2. injection M1 as ->. injection M2 as ->.
    assert (X : Ok ls = Ok (g_listeners g)) by (apply A3; eauto). injection X as ->. destruct g; cbn in *. congruence.
Qed.
Print Assumptions C58_start.

(** ** end to end, with the built-in components *)
Definition builtin_lis (e : entity) (x : component) : Prop :=
  e_kind e = n_graphite /\ exists a, x = Graphite a /\ reads is_str [] (e_config e) (keys [k_address]) a.
Definition builtin_db (e : entity) (x : component) : Prop :=
  e_kind e = n_files /\ exists dir o, x = FilesDB dir o /\ files_fields (e_config e) dir o /\ 0 <= fo_buffer o /\ 0 <= fo_workers o.
Definition builtin_dist (e : entity) (x : component) : Prop :=
  e_kind e = n_tdigest /\ exists c, x = TDigest c /\ reads is_float 0 (e_config e) (keys [k_compression]) c.

Lemma files_maker_no c : files_maker c <> Panic /\ files_maker c <> Diverge.
Proof.
  destruct (C49_files_config c) as [A B]. destruct (files_maker c) as [[d o]| | |] eqn:E; split; try discriminate; exfalso.
  all: assert (X : forall dir o, ~ files_fields c dir o) by (intros d' o' F; apply A in F; discriminate); apply B in X; discriminate.
Qed.
Lemma tdigest_maker_no c : tdigest_maker c <> Panic /\ tdigest_maker c <> Diverge.
Proof.
  destruct (C49_tdigest_config c) as [A B]. destruct (tdigest_maker c) as [v| | |] eqn:E; split; try discriminate; exfalso.
  all: assert (X : forall v, ~ reads is_float 0 c (keys [k_compression]) v) by (intros d' F; apply A in F; discriminate); apply B in X; discriminate.
Qed.
Lemma graphite_maker_no c : graphite_maker c <> Panic /\ graphite_maker c <> Diverge.
Proof.
  destruct (C49_graphite_config c) as [A B]. destruct (graphite_maker c) as [v| | |] eqn:E; split; try discriminate; exfalso.
  all: assert (X : forall v, ~ reads is_str [] c (keys [k_address]) v) by (intros d' F; apply A in F; discriminate); apply B in X; discriminate.
Qed.

Lemma inits_in k n m : In (Reg k n m) inits ->
  (k = KDatabase /\ n = n_files /\ m = fun c => lift (fun x => x) (files_db_maker c)) \/
  (k = KDist /\ n = n_tdigest /\ m = fun c => lift TDigest (tdigest_maker c)) \/
  (k = KListener /\ n = n_graphite /\ m = fun c => lift Graphite (graphite_maker c)).
Proof. intros [H|[H|[H|[]]]]; injection H as <- <- <-; auto. Qed.
Lemma inits_return : makers_return inits.
Proof.
  intros k n m H. apply inits_in in H as [(-> & -> & ->)|[(-> & -> & ->)|(-> & -> & ->)]]; intros c; unfold lift; eexists; (split; [reflexivity|]).
  - destruct (files_maker_no c) as [_ X]. unfold files_db_maker. destruct (files_maker c) as [p| | |]; cbn [bind]; try congruence. destruct (new_panics (snd p)); discriminate.
  - destruct (tdigest_maker_no c) as [_ X]. destruct (tdigest_maker c); congruence.
  - destruct (graphite_maker_no c) as [_ X]. destruct (graphite_maker c); congruence.
Qed.
Lemma new_panics_spec o : new_panics o = false <-> 0 <= fo_buffer o /\ 0 <= fo_workers o.
Proof. unfold new_panics. rewrite orb_false_iff, !Z.ltb_ge. tauto. Qed.
(** the sizes of the database, if they can be read, are not negative *)
Definition sizes_ok (c : value) : Prop := forall dir o, files_fields c dir o -> 0 <= fo_buffer o /\ 0 <= fo_workers o.
Lemma inits_no_panics conf : sizes_ok (e_config (database conf)) -> no_panics inits conf.
Proof.
  intros Hs k n m c H U. apply inits_in in H as [(-> & -> & ->)|[(-> & -> & ->)|(-> & -> & ->)]]; unfold lift.
  - cbn [used] in U. subst c. destruct (files_maker_no (e_config (database conf))) as [X _]. unfold files_db_maker.
    destruct (files_maker (e_config (database conf))) as [[d o]| | |] eqn:E; cbn [bind fst snd]; try congruence.
    apply C49_files_config in E. apply Hs, new_panics_spec in E. rewrite E. discriminate.
  - destruct (tdigest_maker_no c) as [X _]. destruct (tdigest_maker c); congruence.
  - destruct (graphite_maker_no c) as [X _]. destruct (graphite_maker c); congruence.
Qed.
Lemma latest_in {C T} (l : list (rop C T)) k n m : latest l k n m -> In (Reg k n m) l.
Proof. intros (l1 & l2 & -> & _). apply in_or_app. right. now left. Qed.

Lemma makes_db e x : makes inits KDatabase e x <-> builtin_db e x.
Proof.
  split.
  - intros (m & L & E). apply latest_in, inits_in in L as [(_ & K & ->)|[(D & _)|(D & _)]]; try discriminate.
    split; [exact K|]. unfold lift, files_db_maker in E. destruct (files_maker (e_config e)) as [[d o]| | |] eqn:Ef; try discriminate.
    cbn [bind fst snd] in E. destruct (new_panics o) eqn:En; [discriminate|]. injection E as <-. exists d, o. split; [reflexivity|]. split; [now apply C49_files_config|now apply new_panics_spec].
  - intros (K & d & o & -> & F & N). eexists. split.
    + exists [], (tl inits). rewrite K. split; [reflexivity|]. intros m' [H|[H|[]]]; discriminate.
    + cbv beta. unfold lift, files_db_maker. apply (proj1 (C49_files_config _)) in F. rewrite F. cbn [bind fst snd]. apply new_panics_spec in N. rewrite N. reflexivity.
Qed.
Lemma makes_dist e x : makes inits KDist e x <-> builtin_dist e x.
Proof.
  split.
  - intros (m & L & E). apply latest_in, inits_in in L as [(D & _)|[(_ & K & ->)|(D & _)]]; try discriminate.
    split; [exact K|]. unfold lift in E. destruct (tdigest_maker (e_config e)) as [d| | |] eqn:Ef; try discriminate.
    injection E as <-. exists d. split; [reflexivity|]. now apply C49_tdigest_config.
  - intros (K & d & -> & F). eexists. split.
    + exists (firstn 1 inits), (skipn 2 inits). rewrite K. split; [reflexivity|]. intros m' [H|[]]; discriminate.
    + cbv beta. unfold lift. apply (proj1 (C49_tdigest_config _)) in F. rewrite F. reflexivity.
Qed.
Lemma makes_lis e x : makes inits KListener e x <-> builtin_lis e x.
Proof.
  split.
  - intros (m & L & E). apply latest_in, inits_in in L as [(D & _)|[(D & _)|(_ & K & ->)]]; try discriminate.
    split; [exact K|]. unfold lift in E. destruct (graphite_maker (e_config e)) as [d| | |] eqn:Ef; try discriminate.
    injection E as <-. exists d. split; [reflexivity|]. now apply C49_graphite_config.
  - intros (K & d & -> & F). eexists. split.
    + exists (firstn 2 inits), []. rewrite K. split; [reflexivity|]. intros m' [].
    + cbv beta. unfold lift. apply (proj1 (C49_graphite_config _)) in F. rewrite F. reflexivity.
Qed.

(** a document without plugins starts the process iff it decodes, has exactly one
    database, of kind files with well-typed fields (buffer and workers not
    negative), exactly one distribution, of
    kind tdigest with a float compression, and only graphite listeners with
    string addresses; then those are what is started; otherwise the command
    fails with an error and starts nothing -- unless the buffer or the number of
    workers is negative, see C58_negative_refuted *)
Theorem C58_builtin : forall decode open data,
  (forall t, decode data = Some t -> t_plugins t = []) ->
  (forall g, run_command decode open true data = Ok g <->
   exists t d s, decode data = Some t /\ t_database t = [d] /\ t_dist t = [s] /\
    builtin_db (v_entity d) (g_db g) /\ builtin_dist (v_entity s) (g_params g) /\
    Forall2 builtin_lis (listener_entities (t_listeners t)) (g_listeners g) /\
    g_period g = t_duration t /\
    g_api g = {| address := t_address t; origin := t_origin t; tls_key := t_key t; tls_cert := t_cert t;
                 username := t_username t; password := t_password t |}) /\
  ((forall t d, decode data = Some t -> t_database t = [d] -> sizes_ok (snd d)) ->
   run_command decode open true data = Err \/ exists g, run_command decode open true data = Ok g).
Proof.
  intros decode open data Hp. unfold run_command. destruct (C47_accepted decode data) as [Acc Alt].
  destruct Alt as [[c Hc]|He].
  2:{ rewrite He. cbn [bind]. split; [|auto]. intros g. split; [discriminate|]. intros (t & d & s & E & D & S & _). exfalso.
      assert (X : exists c, load decode data = Ok c) by (apply Acc; exists t; eauto). destruct X as [c X]. congruence. }
  rewrite Hc. cbn [bind]. destruct (proj1 Acc (ex_intro _ c Hc)) as (t & Et & [d Hd] & [s Hs]).
  assert (Ec : c = {| duration := t_duration t; plugins := t_plugins t; listeners := listener_entities (t_listeners t);
      database := v_entity d; dist := v_entity s; api := {| address := t_address t; origin := t_origin t; tls_key := t_key t; tls_cert := t_cert t;
                 username := t_username t; password := t_password t |} |}).
  { unfold load in Hc. rewrite Et, Hd, Hs in Hc. cbn in Hc. injection Hc as <-. reflexivity. }
  assert (Hh : in_force open c = inits).
  { unfold in_force. rewrite Ec. cbn [plugins]. rewrite (Hp t Et). cbn. reflexivity. }
  pose proof (C58_start open true c) as St. cbn zeta in St. rewrite Hh in St. destruct (St inits_return) as [S1 S2].
  split; [|intros Hs0; apply S2, inits_no_panics; rewrite Ec; cbn [database v_entity e_config]; eapply Hs0; eauto]. intros g. rewrite S1. clear - Ec Hp Et Hd Hs. rewrite Ec. cbn [duration plugins listeners database dist api]. rewrite (Hp t Et).
  rewrite makes_db, makes_dist.
  assert (FE : Forall2 (makes inits KListener) (listener_entities (t_listeners t)) (g_listeners g) <->
               Forall2 builtin_lis (listener_entities (t_listeners t)) (g_listeners g)).
  { generalize (listener_entities (t_listeners t)) (g_listeners g). intros l l'. split; induction 1; constructor; auto; now apply makes_lis. }
  rewrite FE. split.
  - intros (_ & _ & A & B & C & D & E). exists t, d, s. tauto.
  - intros (t' & d' & s' & E' & D' & S' & A & B & C & D & E). rewrite Et in E'. injection E' as <-. rewrite Hd in D'. injection D' as <-.
    rewrite Hs in S'. injection S' as <-. split; [intros ? []|]. tauto.
Qed.
Print Assumptions C58_builtin.

Example C58_ex : exists g, run_command (fun _ => Some ex_toml) (fun _ => None) true [] = Ok g /\
  g_listeners g = [Graphite [58;49]; Graphite [58;50]] /\ g_params g = TDigest 4617315517961601024 /\ dumper_start g = Ok tt.
Proof. eexists. split; [vm_compute; reflexivity|]. cbn. auto. Qed.

(** a plugin that replaces the files database is used *)
Example C58_plugin_ex :
  let open := fun _ : list Z => Some [Reg KDatabase n_files (fun _ : value => Ret (Ok (Foreign 5)))] in
  let conf := {| duration := 1; plugins := [[1]]; listeners := []; database := {| e_kind := n_files; e_config := VNil |};
     dist := {| e_kind := n_tdigest; e_config := VNil |}; api := {| address := []; origin := []; tls_key := []; tls_cert := []; username := []; password := [] |} |} in
  makers_return (in_force open conf) /\ exists g, fst (run open true (rrun inits reg0) conf) = Ok g /\ g_db g = Foreign 5.
Proof.
  cbn zeta. split; [|eexists; split; [vm_compute; reflexivity|reflexivity]].
  intros k n m H. unfold in_force in H. apply in_app_or in H as [H|H]; [eapply inits_return; eauto|].
  cbn in H. destruct H as [H|[]]. injection H as <- <- <-. intros c. eexists. split; [reflexivity|discriminate].
Qed.

(** a negative buffer size or number of workers is not an error but a panic
    (for every such document) *)
Theorem C58_negative_refuted : forall decode open ui_ok data t d s dir o,
  decode data = Some t -> t_plugins t = [] -> t_database t = [d] -> t_dist t = [s] ->
  fst d = n_files -> files_fields (snd d) dir o -> fo_buffer o < 0 \/ fo_workers o < 0 ->
  run_command decode open ui_ok data = Panic.
Proof.
  intros decode open ui_ok data t [kd cd] [ks cs] dir o Ht Hp Hd Hs Hk Hf Hneg. cbn [fst snd] in *. subst kd.
  unfold run_command, load. rewrite Ht, Hd, Hs. cbn [len length]. change (len [(n_files, cd)] =? 1) with true. change (len [(ks, cs)] =? 1) with true. cbn [negb bind].
  unfold run. cbn [plugins database first_entity v_entity e_kind e_config]. rewrite Hp. cbn [load_plugins fst snd].
  assert (E : fst (new KDatabase n_files cd (rrun inits reg0)) = Panic).
  { assert (M : files_db_maker cd = Panic).
    { unfold files_db_maker. apply (proj1 (C49_files_config _)) in Hf. rewrite Hf. cbn [bind fst snd].
      destruct (new_panics o) eqn:N; [reflexivity|]. apply new_panics_spec in N. lia. }
    unfold new. cbn. rewrite M. reflexivity. }
  destruct (new KDatabase n_files cd (rrun inits reg0)) as [x r]. cbn [fst] in E. subst x. reflexivity.
Qed.
Print Assumptions C58_negative_refuted.
Example C58_negative_ex : run_command (fun _ => Some {| t_duration := 1; t_plugins := []; t_listeners := [];
    t_database := [(n_files, VMap [(k_tuning, VMap [(k_workers, VInt64 (-1))])])]; t_dist := [(n_tdigest, VMap [])];
    t_address := []; t_origin := []; t_key := []; t_cert := []; t_username := []; t_password := [] |}) (fun _ => None) true [] = Panic.
Proof. reflexivity. Qed.

(** an accepted document is not always runnable: without a duration the dumper
    makes a ticker with period 0, which panics, after everything was started *)
Theorem C58_no_duration_refuted : exists decode data open g, run_command decode open true data = Ok g /\ dumper_start g = Panic.
Proof.
  exists (fun _ => Some {| t_duration := 0; t_plugins := t_plugins ex_toml; t_listeners := t_listeners ex_toml;
    t_database := t_database ex_toml; t_dist := t_dist ex_toml; t_address := []; t_origin := []; t_key := []; t_cert := []; t_username := []; t_password := [] |}), [], (fun _ => None).
  eexists. split; [vm_compute; reflexivity|]. reflexivity.
Qed.
Print Assumptions C58_no_duration_refuted.
