(** C91: loading stored distributions. *)
From Coq Require Import ZArith List Lia Bool.
From Verif Require Import Base Maps Typeassert Registry Config Run LoadDist Pb PbRecord Float Agg AggSpec Writer WriterSpec
  Props_Registry Props_Config Props_Data Props_Codec.
Import ListNotations.
Open Scope Z_scope.

(** ** specification *)
(** the plugins leave the built-in distribution alone *)
Definition keeps_tdigest (open : list Z -> option (list (rop value component))) (c : config) : Prop :=
  never (plugin_regs open (plugins c)) KDist n_tdigest.

(** ** after any history of the registry *)
(** A record is loaded by the most recently registered maker of its kind, made
    without configuration; a kind that was never registered is an error.  Loading
    changes nothing, so any number of loads, in any order, give the same. *)
Lemma new_same (h : list (rop value component)) k n c : makers_return h -> snd (new k n c (rrun h reg0)) = rrun h reg0.
Proof.
  intros Hm. destruct (inv h Hm reg0 eq_refl) as (A & B & _).
  { intros k' n' m. destruct k'; discriminate. }
  unfold new. rewrite A. destruct (mget beqb n (table k (rrun h reg0))) as [m|] eqn:E; [|reflexivity].
  destruct (B _ _ _ E c) as (x & Ex & Nx). rewrite Ex. destruct x; try reflexivity. congruence.
Qed.
Lemma load_same (h : list (rop value component)) valid foreign rec : makers_return h ->
  load_dist valid foreign rec (rrun h reg0) =
  (do c <- fst (new KDist (d_kind rec) VNil (rrun h reg0)); params_unmarshal valid foreign c (d_dist rec), rrun h reg0).
Proof.
  intros Hm. unfold load_dist. pose proof (new_same h KDist (d_kind rec) VNil Hm) as S.
  destruct (new KDist (d_kind rec) VNil (rrun h reg0)) as [x r]. cbn [fst snd] in *. now subst r.
Qed.
Theorem C91_load : forall h valid foreign rec, makers_return h ->
  (forall m c, latest h KDist (d_kind rec) m -> m VNil = Ret (Ok c) ->
     load_dist valid foreign rec (rrun h reg0) = (params_unmarshal valid foreign c (d_dist rec), rrun h reg0)) /\
  (forall m, latest h KDist (d_kind rec) m -> m VNil = Ret Err -> load_dist valid foreign rec (rrun h reg0) = (Err, rrun h reg0)) /\
  (never h KDist (d_kind rec) -> load_dist valid foreign rec (rrun h reg0) = (Err, rrun h reg0)).
Proof.
  intros h valid foreign rec Hm. rewrite (load_same h valid foreign rec Hm). destruct (C48_latest_wins _ _ h KDist (d_kind rec) VNil Hm) as [L N]. split; [|split].
  - intros m c Hl Em. apply L in Hl. rewrite Em in Hl. injection Hl as ->. reflexivity.
  - intros m Hl Em. apply L in Hl. rewrite Em in Hl. injection Hl as ->. reflexivity.
  - intros Hn. now rewrite (N Hn).
Qed.
Print Assumptions C91_load.
(** A plugin whose maker accepts no configuration loads what was stored under its
    name: exactly its own Unmarshal of exactly the bytes stored, and its error. *)
Theorem C91_plugin_loads : forall h valid foreign rec m i, makers_return h -> latest h KDist (d_kind rec) m -> m VNil = Ret (Ok (Foreign i)) ->
  fst (load_dist valid foreign rec (rrun h reg0)) = foreign i (d_dist rec).
Proof. intros h valid foreign rec m i M L E. destruct (C91_load h valid foreign rec M) as (A & _). now rewrite (A m _ L E). Qed.
Print Assumptions C91_plugin_loads.

Theorem C91_loads_independent : forall h valid foreign l, makers_return h ->
  load_all valid foreign l (rrun h reg0) = (map (fun rec => fst (load_dist valid foreign rec (rrun h reg0))) l, rrun h reg0).
Proof.
  intros h valid foreign l Hm. induction l as [|rec l IH]; [reflexivity|]. cbn [load_all map]. rewrite (load_same h valid foreign rec Hm) at 1.
  rewrite IH. rewrite (load_same h valid foreign rec Hm). reflexivity.
Qed.
Print Assumptions C91_loads_independent.

(** ** a process, with the built-in distribution *)
Lemma latest_builtin open conf : keeps_tdigest open conf -> latest (in_force open conf) KDist n_tdigest (fun c => lift TDigest (tdigest_maker c)).
Proof.
  intros K. unfold in_force, inits. exists [Reg KDatabase n_files (fun c => lift (fun x => x) (files_db_maker c))], (Reg KListener n_graphite (fun c => lift Graphite (graphite_maker c)) :: plugin_regs open (plugins conf)).
  split; [reflexivity|]. intros m' [H|H]; [discriminate|]. exact (K m' H).
Qed.
(** Whatever is configured (the compression in particular) and whatever other
    plugins register, a record of kind "tdigest" is loaded exactly when its bytes
    are those of a t-digest, and gives that t-digest. *)
Theorem C91_builtin : forall open conf valid foreign rec, makers_return (in_force open conf) -> keeps_tdigest open conf -> d_kind rec = n_tdigest ->
  load_dist valid foreign rec (rrun (in_force open conf) reg0) =
  (if valid (d_dist rec) then Ok (LTDigest (d_dist rec)) else Err, rrun (in_force open conf) reg0).
Proof.
  intros open conf valid foreign rec Hm K E. destruct (C91_load (in_force open conf) valid foreign rec Hm) as (L & _). rewrite E in L.
  rewrite (L _ (TDigest 0) (latest_builtin open conf K) eq_refl). reflexivity.
Qed.
Print Assumptions C91_builtin.

(** From the values to the loaded distribution: in any history of a writer, each
    record a Capture delivers, once encoded and decoded, is loaded as the t-digest
    of exactly the metric's pending values.  [p] is how the record was written,
    [conf] what the process that loads it was started with; they need not agree. *)
Theorem C91_captured_loads : forall open conf valid foreign p hist s now recs full s' m r,
  makers_return (in_force open conf) -> keeps_tdigest open conf ->
  p_kind p = n_tdigest -> p_new p = true -> (forall vs, valid (p_marshal p vs) = true) ->
  hist_fits hist -> hist_floats hist -> w_hist p hist s -> w_step p s (ECapture now recs full) s' -> In (m, r) recs ->
  (forall b, boundary hist = Some b -> is_i64 b) -> is_i64 now -> len (drec_marshal r) < 2 ^ 62 ->
  exists r', drec_unmarshal (drec_marshal r) = Ok r' /\
    load_dist valid foreign r' (rrun (in_force open conf) reg0) = (Ok (LTDigest (p_marshal p (map fst (pending m hist)))), rrun (in_force open conf) reg0).
Proof.
  intros open conf valid foreign p hist s now recs full s' m r Hm K Pk Pn V Fit Fl H St Hin Hb Hn Hlen.
  destruct (C35_capture_partial p hist s now recs full s' Pn Fit Fl H St) as (_ & D & _).
  destruct (D m r Hin) as (b & Eb & D1 & D2 & (Dn & (Dmin & _) & (Dmax & _)) & D3 & D4 & D5).
  assert (Pend : forall v i, In (v, i) (pending m hist) -> 0 <= v < 2 ^ 64).
  { intros v i Hv. assert (G : forall h acc, (forall t m' v' i', In (EAdd t m' v' i') h -> is_f64 v') -> (forall v' i', In (v', i') acc -> is_f64 v') ->
      forall v' i', In (v', i') (fold_left (pending_add m) h acc) -> is_f64 v').
    { clear. induction h as [|e h IH]; intros acc Hf Ha v' i' Hi; [exact (Ha _ _ Hi)|]. cbn [fold_left] in Hi. eapply IH; [|..|exact Hi]; [intros; eapply Hf; right; eassumption|].
      intros v2 i2 H2. destruct e as [t m' w id|t rs f|t rs f]; cbn [pending_add] in H2; [|destruct H2|now apply Ha in H2].
      destruct (beqb m m' && counts w); [|now apply Ha in H2]. apply in_app_or in H2 as [H2|[H2|[]]]; [now apply Ha in H2|]. injection H2 as <- <-. eapply Hf. now left. }
    eapply (G hist []); [exact Fl|intros ? ? []|exact Hv]. }
  assert (Ln : Z.of_nat (length (pending m hist)) <= Z.of_nat (length hist)).
  { assert (G : forall h acc, (length (fold_left (pending_add m) h acc) <= length acc + length h)%nat).
    { clear. induction h as [|e h IH]; intros acc; cbn [fold_left length]; [lia|]. pose proof (IH (pending_add m acc e)) as X.
      destruct e as [t m' w id|t rs f|t rs f]; cbn [pending_add length] in *; [destruct (beqb m m' && counts w); [rewrite app_length in X; cbn [length] in X|]| |]; lia. }
    specialize (G hist []). cbn [length] in G. unfold pending. lia. }
  destruct (C07_data_record_roundtrip r) as (r' & E & _ & _ & _ & Ed & Ek & _).
  - rewrite D1. now apply Hb.
  - now rewrite D2.
  - rewrite Dn. unfold hist_fits in Fit. unfold is_i64. lia.
  - rewrite D5. unfold is_i64. lia.
  - eapply Pend, Dmin.
  - eapply Pend, Dmax.
  - exact Hlen.
  - exists r'. split; [exact E|]. rewrite C91_builtin; [|assumption..|congruence]. now rewrite Ed, D3, V.
Qed.
Print Assumptions C91_captured_loads.

(** constructing components (run does it for the database, the distribution and the
    listeners) leaves the registry as it was, so it does not matter when records are loaded *)
Theorem C91_start_keeps : forall open conf k n c, makers_return (in_force open conf) -> snd (new k n c (rrun (in_force open conf) reg0)) = rrun (in_force open conf) reg0.
Proof. intros open conf k n c Hm. now apply new_same. Qed.
Print Assumptions C91_start_keeps.

(** ** plugins *)
(** The kind in the records is that of Params.Kind, not the name in the
    configuration, and loading gives no configuration.  So a process can start
    with a plugin's distribution and store records that it cannot load: because
    its maker insists on a configuration, or because it is registered under
    another name than its Kind.  And a plugin that replaces "tdigest" makes older
    records unreadable. *)
Definition toml_with (k : list Z) (v : value) : toml_config := {| t_duration := 600000000000; t_plugins := [[112]];
  t_listeners := []; t_database := [(n_files, VMap [(k_directory, VStr [100])])]; t_dist := [(k, v)];
  t_address := []; t_origin := []; t_key := []; t_cert := []; t_username := []; t_password := [] |}.
(** the plugin: distribution 7, which wants a configuration *)
Definition picky : maker value component := fun c => match c with VNil => Ret Err | _ => Ret (Ok (Foreign 7)) end.
Definition plugin (name : list Z) : list Z -> option (list (rop value component)) := fun _ => Some [Reg KDist name picky].
Lemma plugin_returns name conf : makers_return (in_force (plugin name) conf).
Proof.
  unfold in_force. intros k n m H. apply in_app_or in H as [H|H]; [now apply (inits_return k n m)|].
  assert (X : forall ps, In (Reg k n m) (plugin_regs (plugin name) ps) -> m = picky).
  { clear. induction ps as [|p ps IH]; [intros []|]. cbn [plugin_regs plugin app]. intros [H|H]; [now injection H|auto]. }
  rewrite (X _ H). intros c. destruct c; eexists; (split; [reflexivity|discriminate]).
Qed.
Theorem C91_plugin_refuted :
  (* its own records: registered as "q", kind "q" *)
  (exists g conf, run_command (fun _ => Some (toml_with [113] (VInt64 1))) (plugin [113]) true [] = Ok g /\ g_params g = Foreign 7 /\
     load (fun _ => Some (toml_with [113] (VInt64 1))) [] = Ok conf /\
     forall valid foreign rec, d_kind rec = [113] -> fst (load_dist valid foreign rec (rrun (in_force (plugin [113]) conf) reg0)) = Err) /\
  (* registered as "q", kind "r" *)
  (forall conf valid foreign rec, d_kind rec = [114] -> fst (load_dist valid foreign rec (rrun (in_force (plugin [113]) conf) reg0)) = Err) /\
  (* registered as "tdigest" *)
  (forall conf valid foreign rec, plugins conf <> [] -> d_kind rec = n_tdigest ->
     fst (load_dist valid foreign rec (rrun (in_force (plugin n_tdigest) conf) reg0)) = Err).
Proof.
  assert (L : forall name ps, ps <> [] -> latest (inits ++ plugin_regs (plugin name) ps) KDist name picky).
  { intros name ps N. destruct (@exists_last _ ps N) as (l & p & ->).
    assert (E : plugin_regs (plugin name) (l ++ [p]) = plugin_regs (plugin name) l ++ [Reg KDist name picky]).
    { clear. induction l as [|x l IH]; [reflexivity|]. cbn [app plugin_regs]. rewrite IH. reflexivity. }
    rewrite E, app_assoc. eexists _, []. split; [reflexivity|]. intros m' []. }
  split; [|split].
  - eexists. eexists. split; [vm_compute; reflexivity|]. split; [reflexivity|]. split; [vm_compute; reflexivity|]. intros valid foreign rec E.
    match goal with |- context [in_force _ ?c] => set (conf := c) end.
    destruct (C91_load (in_force (plugin [113]) conf) valid foreign rec (plugin_returns _ _)) as (_ & R & _). rewrite E in R.
    rewrite (R picky); [reflexivity| |reflexivity]. apply L. discriminate.
  - intros conf valid foreign rec E.
    destruct (C91_load (in_force (plugin [113]) conf) valid foreign rec (plugin_returns _ _)) as (_ & _ & R). rewrite E in R. rewrite R; [reflexivity|].
    intros m H. unfold in_force in H. apply in_app_or in H as [H|H].
    + apply inits_in in H as [(X & _)|[(_ & X & _)|(X & _)]]; discriminate.
    + revert H. generalize (plugins conf). induction l as [|p ps IH]; [intros []|]. cbn [plugin_regs plugin app]. intros [H|H]; [discriminate|auto].
  - intros conf valid foreign rec N E.
    destruct (C91_load (in_force (plugin n_tdigest) conf) valid foreign rec (plugin_returns _ _)) as (_ & R & _). rewrite E in R.
    rewrite (R picky); [reflexivity| |reflexivity]. now apply L.
Qed.
Print Assumptions C91_plugin_refuted.

(** ** the hypotheses are met *)
Definition td_params : params := Params n_tdigest true (fun vs => vs).
Definition no_plugins (p : list Z) : option (list (rop value component)) := None.
Definition ex_conf : config := {| duration := 600000000000; plugins := [];
  listeners := []; database := {| e_kind := n_files; e_config := VMap [] |}; dist := {| e_kind := n_tdigest; e_config := VMap [(k_compression, VFloat f5)] |};
  api := {| address := []; origin := []; tls_key := []; tls_cert := []; username := []; password := [] |} |}.
Example C91_ex : makers_return (in_force no_plugins ex_conf) /\ keeps_tdigest no_plugins ex_conf /\
  exists hist s recs s' r, w_hist td_params hist s /\ hist_floats hist /\ w_step td_params s (ECapture 20 recs true) s' /\ recs = [([109], r)] /\
  forall foreign, fst (load_dist (fun _ => true) foreign r (rrun (in_force no_plugins ex_conf) reg0)) = Ok (LTDigest [f3; f5]).
Proof.
  split; [unfold in_force; cbn [plugins ex_conf plugin_regs]; rewrite app_nil_r; exact inits_return|]. split; [intros m []|].
  exists [EAdd 10 [109] f3 [1]; EAdd 11 [109] f5 [2]]. do 4 eexists. split; [|split; [|split; [|split]]].
  - eapply (wh_step _ [EAdd 10 [109] f3 [1]] _ (EAdd 11 [109] f5 [2])).
    + apply (wh_step _ [] _ (EAdd 10 [109] f3 [1]) _ (wh_nil _)). constructor. vm_compute. reflexivity.
    + apply ws_add. vm_compute. reflexivity.
  - intros t m v id H; destruct H as [H|[H|[]]]; injection H as <- <- <- <-; [apply fin3|apply fin5].
  - eapply ws_capture; [split; [apply Permutation.Permutation_refl|reflexivity]|vm_compute; reflexivity].
  - reflexivity.
  - intros foreign. vm_compute. reflexivity.
Qed.
Example C91_plugin_loads_ex : exists m, makers_return [Reg KDist [113] m] /\ latest [Reg KDist [113] m] KDist [113] m /\ m VNil = Ret (Ok (Foreign 7)).
Proof.
  exists (fun _ => Ret (Ok (Foreign 7))). split; [|split; [|reflexivity]].
  - intros k n m [H|[]]. injection H as <- <- <-. intros c. eexists. split; [reflexivity|discriminate].
  - exists [], []. split; [reflexivity|]. intros m' [].
Qed.
