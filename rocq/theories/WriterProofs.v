(** Proofs about Writer.v. *)
From Coq Require Import ZArith List Lia Bool Permutation.
From Verif Require Import Base Maps Pb PbRecord Float FloatProofs Agg AggSpec AggProofs Writer WriterSpec.
Import ListNotations.
Open Scope Z_scope.

Lemma nodup_mdel_ {V} k (m : list (list Z * V)) : NoDup (map fst m) -> NoDup (map fst (mdel beqb k m)).
Proof.
  unfold mdel. induction m as [|[k' v] m IH]; cbn; [auto|]. intros H. inversion H; subst.
  destruct (negb (beqb k k')) eqn:E; cbn; auto. constructor; auto.
  intros Hin. apply H2. apply in_map_iff in Hin. destruct Hin as (x & Hx & Hin). apply filter_In in Hin.
  apply in_map_iff. exists x. tauto.
Qed.
Lemma nodup_mput_ {V} k (v : V) m : NoDup (map fst m) -> NoDup (map fst (mput beqb k v m)).
Proof.
  intros H. unfold mput. cbn. constructor; [|now apply nodup_mdel_].
  intros Hin. apply in_map_iff in Hin. destruct Hin as (x & Hx & Hin). apply filter_In in Hin. destruct Hin as [_ Hin].
  rewrite Hx in Hin. rewrite (eqb_refl_ _ eqb_ok_bytes) in Hin. discriminate.
Qed.
Lemma mget_nodup {V} k (v : V) (m : list (list Z * V)) : NoDup (map fst m) -> (mget beqb k m = Some v <-> In (k, v) m).
Proof.
  induction m as [|[k' v'] m IH]; cbn; intros H; [split; [discriminate|contradiction]|]. inversion H; subst.
  destruct (beqb k k') eqn:E.
  - apply beqb_eq in E. subst k'. split.
    + intros X. injection X as ->. now left.
    + intros [X|X]; [now injection X as ->|]. exfalso. apply H2. apply (in_map fst) in X. exact X.
  - rewrite IH by assumption. split; [now right|]. intros [X|X]; [|assumption]. injection X as -> ->.
    rewrite (eqb_refl_ _ eqb_ok_bytes) in E. discriminate.
Qed.

Lemma counts_skip v : counts v = negb (w_skip v).
Proof. unfold counts, w_skip. now rewrite negb_orb. Qed.
Lemma counts_finite v : is_f64 v -> counts v = true -> finite v.
Proof. unfold counts, finite. intros H E. apply andb_true_iff in E. destruct E as [A B]. apply negb_true_iff in A, B. auto. Qed.

Lemma pending_snoc m h e : pending m (h ++ [e]) = pending_add m (pending m h) e.
Proof. unfold pending. now rewrite fold_left_app. Qed.
Lemma boundary_snoc h e : boundary (h ++ [e]) = boundary_add (boundary h) e.
Proof. unfold boundary. now rewrite fold_left_app. Qed.

Lemma pending_len m h : (length (pending m h) <= length h)%nat.
Proof.
  induction h as [|e h IH] using rev_ind; [reflexivity|]. rewrite pending_snoc, app_length. cbn [length].
  destruct e as [t m' v i| |]; cbn [pending_add length]; try lia.
  destruct (_ && _); rewrite ?app_length; cbn [length]; lia.
Qed.
Lemma pending_fits m h : hist_fits h -> fits (pending m h).
Proof. unfold hist_fits, fits. pose proof (pending_len m h). lia. Qed.
Lemma pending_finite m h : hist_floats h -> all_finite (pending m h).
Proof.
  unfold hist_floats, all_finite. induction h as [|e h IH] using rev_ind; intros H; [constructor|].
  rewrite pending_snoc. assert (IH' : Forall (fun x => finite (fst x)) (pending m h)) by (apply IH; intros; apply (H t m0 v id); apply in_or_app; now left).
  destruct e as [t m' v i| |]; cbn [pending_add]; [|constructor|assumption].
  destruct (beqb m m' && counts v) eqn:E; [|assumption]. apply andb_true_iff in E. destruct E as [_ E].
  apply Forall_app. split; [assumption|]. constructor; [|constructor]. cbn.
  apply counts_finite; [|assumption]. apply (H t m' v i). apply in_or_app. right. now left.
Qed.

Definition wok (p : params) (h : list wevent) (s : writer) : Prop :=
  match s with
  | None => boundary h = None /\ forall m, pending m h = []
  | Some pg => boundary h = Some (pg_now pg) /\ NoDup (map fst (pg_m pg)) /\
      forall m, match mget beqb m (pg_m pg) with
                | None => pending m h = []
                | Some a => aok p (pg_now pg) (pending m h) a /\ pending m h <> []
                end
  end.

Lemma finish_ok p now log now0 a : aok p now0 log a -> log <> [] ->
  exists r, agg_finish p now a = Ok r /\ describes p now0 now log r.
Proof.
  intros [M D S G O R] Hne. unfold agg_finish. rewrite M, D. destruct log as [|x log]; [contradiction|].
  eexists. split; [reflexivity|]. unfold describes. cbn [d_start d_end d_dist d_kind d_merged].
  split; [assumption|]. split; [reflexivity|]. split; [|auto].
  destruct (R Hne) as (R1 & R2 & R3). split; [exact R1|]. split; assumption.
Qed.

Lemma range_ok p now h now0 ord :
  (forall k a, In (k, a) ord -> aok p now0 (pending k h) a /\ pending k h <> []) ->
  exists recs, w_range p now ord = Ok recs /\ map fst recs = map fst ord /\
    forall k r, In (k, r) recs -> describes p now0 now (pending k h) r.
Proof.
  induction ord as [|[k a] ord IH]; intros H; [exists []; split; [reflexivity|]; split; [reflexivity|intros ? ? []]|].
  destruct (H k a) as [Ha Hne]; [now left|]. destruct (finish_ok p now _ _ _ Ha Hne) as (r & E1 & D1).
  destruct IH as (recs & E2 & M2 & D2); [intros; apply H; now right|].
  exists ((k, r) :: recs). cbn [w_range]. rewrite E1, E2. cbn. rewrite M2. split; [reflexivity|]. split; [reflexivity|].
  intros k' r' [X|X]; [injection X as <- <-; assumption|auto].
Qed.

Lemma add_ok p h s now m v id :
  p_new p = true -> wok p h s -> hist_fits (h ++ [EAdd now m v id]) -> hist_floats (h ++ [EAdd now m v id]) ->
  exists s', w_add p now m v id s = Ok s' /\ wok p (h ++ [EAdd now m v id]) s'.
Proof.
  intros Hp Hs Hn Hf. unfold w_add.
  destruct (w_skip v) eqn:Sk.
  - exists s. split; [reflexivity|].
    assert (Hc : counts v = false) by (rewrite counts_skip, Sk; reflexivity).
    assert (HP : forall m', pending m' (h ++ [EAdd now m v id]) = pending m' h)
      by (intros m'; rewrite pending_snoc; cbn; now rewrite Hc, andb_false_r).
    assert (HB : boundary (h ++ [EAdd now m v id]) = boundary h)
      by (rewrite boundary_snoc; cbn; rewrite Hc; now destruct (boundary h)).
    unfold wok in *. rewrite HB. destruct s as [pg|].
    + destruct Hs as (A & B & C). repeat split; auto. intros m'. rewrite HP. apply C.
    + destruct Hs as (A & B). split; auto. intros m'. rewrite HP. apply B.
  - assert (Hc : counts v = true) by (rewrite counts_skip, Sk; reflexivity).
    set (pg := match s with Some pg => pg | None => Page now [] end).
    set (a := match mget beqb m (pg_m pg) with Some a => a | None => agg_new (pg_now pg) end).
    assert (Hpg : boundary (h ++ [EAdd now m v id]) = Some (pg_now pg) /\ NoDup (map fst (pg_m pg)) /\
      forall m', match mget beqb m' (pg_m pg) with
                | None => pending m' h = []
                | Some a => aok p (pg_now pg) (pending m' h) a /\ pending m' h <> []
                end).
    { rewrite boundary_snoc. subst pg. destruct s as [pg|]; cbn [wok] in Hs.
      - destruct Hs as (A & B & C). rewrite A. cbn. auto.
      - destruct Hs as (A & B). rewrite A. cbn. rewrite Hc. repeat split; [constructor|]. exact B. }
    destruct Hpg as (HB & HN & HG).
    assert (Ha : aok p (pg_now pg) (pending m h) a).
    { subst a. specialize (HG m). destruct (mget beqb m (pg_m pg)); [apply HG|]. rewrite HG. apply aok_new. }
    assert (HPm : pending m (h ++ [EAdd now m v id]) = pending m h ++ [(v, id)]).
    { rewrite pending_snoc. cbn. now rewrite (eqb_refl_ _ eqb_ok_bytes), Hc. }
    destruct (aok_step p (pg_now pg) (pending m h) a v id Hp Ha) as (a' & E & Ha').
    + rewrite <- HPm. now apply pending_finite.
    + rewrite <- HPm. now apply pending_fits.
    + rewrite E. cbn [bind]. eexists. split; [reflexivity|]. cbn [wok pg_now pg_m]. split; [assumption|].
      split; [now apply nodup_mput_|]. intros m'. rewrite (mget_put _ eqb_ok_bytes).
      destruct (beqb m m') eqn:Em.
      * apply beqb_eq in Em. subst m'. rewrite HPm. split; [assumption|apply app_ne].
      * assert (Hm : beqb m' m = false) by (destruct (beqb m' m) eqn:X; [apply beqb_eq in X; subst; now rewrite (eqb_refl_ _ eqb_ok_bytes) in Em|reflexivity]).
        rewrite pending_snoc. cbn. rewrite Hm. cbn. apply HG.
Qed.

Lemma visited_in s ord vis full k a : visited s ord vis full -> In (k, a) vis -> In (k, a) (w_entries s).
Proof.
  intros [P V] H. rewrite <- P. destruct full; [now subst|]. destruct V as (n & ->).
  rewrite <- (firstn_skipn n ord). apply in_or_app. now left.
Qed.
Lemma visited_nodup s ord vis full : visited s ord vis full -> NoDup (map fst (w_entries s)) -> NoDup (map fst vis).
Proof.
  intros [P V] H. assert (N : NoDup (map fst ord)).
  { eapply Permutation_NoDup; [|exact H]. apply Permutation_map. now symmetry. }
  destruct full; [now subst|]. destruct V as (n & ->).
  rewrite <- (firstn_skipn n ord), map_app in N. clear - N. 
  induction (map fst (firstn n ord)) as [|x l IH]; [constructor|]. cbn in N. inversion N; subst. constructor; auto.
  intros X. apply H1. apply in_or_app. now left.
Qed.

Lemma entries_ok p h s k a : wok p h s -> In (k, a) (w_entries s) ->
  exists b, boundary h = Some b /\ aok p b (pending k h) a /\ pending k h <> [].
Proof.
  unfold wok. destruct s as [pg|]; cbn [w_entries]; [|contradiction]. intros (A & B & C) H.
  apply (mget_nodup k a _ B) in H. specialize (C k). rewrite H in C. eauto.
Qed.
Lemma entries_nodup p h s : wok p h s -> NoDup (map fst (w_entries s)).
Proof. unfold wok. destruct s as [pg|]; cbn; [tauto|constructor]. Qed.

Lemma range_all p h s now ord vis full : wok p h s -> visited s ord vis full ->
  exists recs, w_range p now vis = Ok recs /\ map fst recs = map fst vis /\
    forall k r, In (k, r) recs -> exists b, boundary h = Some b /\ describes p b now (pending k h) r.
Proof.
  intros Hs Hv.
  destruct s as [pg|].
  - destruct (range_ok p now h (pg_now pg) vis) as (recs & A & B & C).
    + intros k a H. apply (visited_in _ _ _ _ _ _ Hv) in H. destruct (entries_ok _ _ _ _ _ Hs H) as (b & X & Y).
      cbn in Hs. destruct Hs as (Hb & _). rewrite Hb in X. injection X as <-. exact Y.
    + exists recs. split; [assumption|]. split; [assumption|]. intros k r H. exists (pg_now pg). split; [apply Hs|]. apply C. assumption.
  - assert (vis = []) as ->.
    { destruct Hv as [P V]. cbn in P. symmetry in P. apply Permutation_nil in P. subst ord.
      destruct full; [assumption|]. destruct V as (n & ->). now destruct n. }
    exists []. split; [reflexivity|]. split; [reflexivity|]. intros ? ? [].
Qed.

Lemma wok_capture p h s now recs full : wok p h s -> wok p (h ++ [ECapture now recs full]) (w_capture now s).
Proof.
  unfold wok, w_capture. rewrite boundary_snoc. destruct s as [pg|].
  - intros (A & B & C). cbn. rewrite A. repeat split; [constructor|]. intros m. rewrite pending_snoc. reflexivity.
  - intros (A & B). cbn. rewrite A. split; [reflexivity|]. intros m. rewrite pending_snoc. reflexivity.
Qed.
Lemma wok_iterate p h s now recs full : wok p h s -> wok p (h ++ [EIterate now recs full]) s.
Proof.
  unfold wok. rewrite boundary_snoc. destruct s as [pg|].
  - intros (A & B & C). cbn. repeat split; auto. intros m. rewrite pending_snoc. apply C.
  - intros (A & B). cbn. split; auto. intros m. rewrite pending_snoc. apply B.
Qed.

Lemma hist_fits_app h e : hist_fits (h ++ [e]) -> hist_fits h.
Proof. unfold hist_fits. rewrite app_length. cbn. lia. Qed.
Lemma hist_floats_app h e : hist_floats (h ++ [e]) -> hist_floats h.
Proof. unfold hist_floats. intros H t m v id Hin. apply (H t m v id). apply in_or_app. now left. Qed.

Lemma wok_hist p h s : p_new p = true -> w_hist p h s -> hist_fits h -> hist_floats h -> wok p h s.
Proof.
  intros Hp H. induction H as [|h s e s' H IH St]; intros Hn Hf; [split; [reflexivity|intros m; reflexivity]|].
  specialize (IH (hist_fits_app _ _ Hn) (hist_floats_app _ _ Hf)).
  destruct St as [s now m v id s' E|s now ord vis recs full V E|s now ord vis recs full V E].
  - destruct (add_ok p h s now m v id Hp IH Hn Hf) as (s'' & E' & W). rewrite E in E'. injection E' as <-. exact W.
  - now apply wok_capture.
  - now apply wok_iterate.
Qed.

(** counting *)
Lemma added_app m h1 h2 : added m (h1 ++ h2) = added m h1 ++ added m h2.
Proof. induction h1 as [|[t m' v i| |] h1 IH]; cbn; auto. destruct (_ && _); cbn; now rewrite IH. Qed.
Lemma captured_app m h1 h2 : captured_obs m (h1 ++ h2) = captured_obs m h1 + captured_obs m h2.
Proof. induction h1 as [|[t m' v i|t r f|t r f] h1 IH]; cbn; auto. rewrite IH. lia. Qed.

Lemma obs_of_none m recs : ~ In m (map fst recs) -> obs_of m recs = 0.
Proof.
  induction recs as [|[k r] recs IH]; cbn; intros H; [reflexivity|].
  destruct (beqb m k) eqn:E; [apply beqb_eq in E; subst; exfalso; apply H; now left|]. apply IH. tauto.
Qed.
Lemma obs_of_one m recs r : NoDup (map fst recs) -> In (m, r) recs -> obs_of m recs = d_obs r.
Proof.
  induction recs as [|[k r'] recs IH]; cbn; intros H Hin; [contradiction|]. inversion H; subst.
  destruct Hin as [X|X].
  - injection X as -> ->. rewrite (eqb_refl_ _ eqb_ok_bytes). fold (obs_of m recs). rewrite obs_of_none by assumption. lia.
  - destruct (beqb m k) eqn:E; [|apply IH; assumption]. apply beqb_eq in E. subst k. exfalso. apply H2.
    apply (in_map fst) in X. exact X.
Qed.

(** the facts about one Capture *)
Lemma capture_facts p h s now recs full s' :
  p_new p = true -> w_hist p h s -> w_step p s (ECapture now recs full) s' -> hist_fits h -> hist_floats h ->
  NoDup (map fst recs) /\
  (forall m r, In (m, r) recs -> exists b, boundary h = Some b /\ describes p b now (pending m h) r) /\
  (full = true -> forall m, pending m h <> [] -> exists r, In (m, r) recs).
Proof.
  intros Hp H St Hn Hf. pose proof (wok_hist _ _ _ Hp H Hn Hf) as W.
  inversion St as [|? ? ord vis ? ? V E|]; subst.
  destruct (range_all p h s now ord vis full W V) as (recs' & E' & M & D). rewrite E in E'. injection E' as <-.
  pose proof (visited_nodup _ _ _ _ V (entries_nodup _ _ _ W)) as N.
  split; [rewrite M; exact N|]. split; [exact D|].
  intros -> m Hm. destruct V as [P V]. subst vis.
  assert (Hin : In m (map fst recs)).
  { rewrite M. eapply Permutation_in; [apply Permutation_map; symmetry; exact P|].
    unfold wok in W. destruct s as [pg|]; cbn [w_entries].
    - destruct W as (A & B & C). specialize (C m). destruct (mget beqb m (pg_m pg)) as [a|] eqn:G; [|contradiction].
      apply (mget_nodup m a _ B) in G. apply (in_map fst) in G. exact G.
    - destruct W as (_ & W). now rewrite W in Hm. }
  apply in_map_iff in Hin. destruct Hin as ([k r] & X & Y). cbn in X. subst k. eauto.
Qed.

Lemma captured_once p h s m : p_new p = true -> w_hist p h s -> hist_fits h -> hist_floats h -> all_full h ->
  captured_obs m h + Z.of_nat (length (pending m h)) = Z.of_nat (length (added m h)).
Proof.
  intros Hp H. induction H as [|h s e s' H IH St]; intros Hn Hf Ha; [reflexivity|].
  assert (IH' := IH (hist_fits_app _ _ Hn) (hist_floats_app _ _ Hf)
    (fun n r X => Ha n r (in_or_app _ _ _ (or_introl X)))).
  rewrite captured_app, added_app, pending_snoc, app_length.
  destruct e as [t m' v i|t recs full|t recs full]; cbn [captured_obs added pending_add].
  - destruct (beqb m m' && counts v); rewrite ?app_length; cbn [length]; lia.
  - destruct full; [|exfalso; apply (Ha t recs); apply in_or_app; right; now left].
    destruct (capture_facts p h s t recs true s' Hp H St (hist_fits_app _ _ Hn) (hist_floats_app _ _ Hf)) as (N & D & C).
    assert (Ho : obs_of m recs = Z.of_nat (length (pending m h))).
    { destruct (pending m h) as [|x l] eqn:E.
      - apply obs_of_none. intros X. apply in_map_iff in X. destruct X as ([k r] & X & Y). cbn in X. subst k.
        destruct (D m r Y) as (b & _ & _ & _ & (_ & (I & _) & _) & _). rewrite E in I. contradiction.
      - destruct (C eq_refl m) as (r & Y); [rewrite E; discriminate|].
        rewrite (obs_of_one m recs r N Y). destruct (D m r Y) as (b & _ & _ & _ & (X & _) & _). rewrite X, E. reflexivity. }
    cbn [length]. lia.
  - cbn [length]. lia.
Qed.

(** every call returns *)
Lemma step_total p h s : p_new p = true -> w_hist p h s -> hist_floats h -> Z.of_nat (length h) + 1 < 2 ^ 63 ->
  (forall now m v id, is_f64 v -> exists s', w_step p s (EAdd now m v id) s') /\
  (forall now ord vis full, visited s ord vis full -> exists recs, w_step p s (ECapture now recs full) (w_capture now s)
                                                /\ w_step p s (EIterate now recs full) s).
Proof.
  intros Hp H Hf Hn. assert (Hn' : hist_fits h) by (unfold hist_fits; lia).
  pose proof (wok_hist _ _ _ Hp H Hn' Hf) as W. split.
  - intros now m v id Hv. destruct (add_ok p h s now m v id Hp W) as (s' & E & _).
    + unfold hist_fits. rewrite app_length. cbn. lia.
    + intros t m' v' id' Hin. apply in_app_or in Hin. destruct Hin as [Hin|[Hin|[]]]; [eapply Hf; eauto|]. now injection Hin as <- <- <- <-.
    + exists s'. now constructor.
  - intros now ord vis full V. destruct (range_all p h s now ord vis full W V) as (recs & E & _).
    exists recs. split; econstructor; eauto.
Qed.
