From Coq Require Import ZArith List Lia Bool.
From Verif Require Import Base Convert ConvertSpec.
Import ListNotations.
Open Scope Z_scope.

Definition render (comps : list (list Z)) (cur : list Z) : list Z :=
  concat (map (fun c => c ++ [c_slash]) comps) ++ cur.

Definition clean (c : list Z) : Prop := ~ In 46 c /\ ~ In 47 c.

Lemma clean_app a b : clean a -> clean b -> clean (a ++ b).
Proof. unfold clean; intros [? ?] [? ?]; split; rewrite in_app_iff; tauto. Qed.

Lemma clean_rep n : clean (rep_2e n).
Proof.
  induction n; cbn [rep_2e]; [split; intros []|].
  apply clean_app; auto. split; cbn; intuition discriminate.
Qed.

Lemma rep_2e_length n : length (rep_2e n) = (3 * n)%nat.
Proof. induction n; cbn [rep_2e]; auto. rewrite app_length, IHn. cbn. lia. Qed.

Lemma rep_2e_snoc n : rep_2e n ++ s_2e = rep_2e (S n).
Proof. induction n; auto. cbn [rep_2e] in *. rewrite <- app_assoc, IHn. reflexivity. Qed.

Lemma render_snoc comps cur : render (comps ++ [cur]) [] = render comps cur ++ [c_slash].
Proof.
  unfold render. rewrite map_app, concat_app. cbn. rewrite !app_nil_r, <- app_assoc. reflexivity.
Qed.

Lemma render_app comps cur x : render comps (cur ++ x) = render comps cur ++ x.
Proof. unfold render. now rewrite app_assoc. Qed.

(** invariant of the metricToDir loop after the prefix [p] of the metric.
    [base] is what was in the buffer before. *)
Definition m2d_inv (base p : list Z) (st : list Z * bool * Z) : Prop :=
  let '(buf, nd, dots) := st in
  0 <= dots /\
  exists comps cur,
    buf = base ++ render comps cur /\
    Forall safe_component comps /\ clean cur /\
    (cur = [] -> p = [] \/ (nd = true /\ dots = 1)) /\
    (nd = true -> 0 < dots -> cur = rep_2e (Z.to_nat (dots - 1)) /\ comps <> []) /\
    (nd = false -> 0 < dots -> cur <> []) /\
    (p = [] -> comps = [] /\ cur = [] /\ nd = false /\ dots = 0) /\
    (dots = 0 -> nd = false -> p = []).

Lemma safe_of_clean c : c <> [] -> clean c -> safe_component c.
Proof. intros ? [? ?]. repeat split; auto. Qed.

Lemma m2d_inv_step base p st ch : m2d_inv base p st -> m2d_inv base (p ++ [ch]) (m2d_step st ch).
Proof.
  destruct st as [[buf nd] dots]. unfold m2d_inv.
  intros (Hd & comps & cur & Hb & Hs & Hc & H1 & H2 & H3 & H4 & H5).
  assert (Pne : p ++ [ch] <> []) by (destruct p; discriminate).
  unfold m2d_step.
  destruct (Z.eqb_spec ch c_dot) as [->|Hnd].
  - (* dot *)
    split; [lia|].
    destruct (Z.ltb_spec 0 dots) as [Hdp|Hdz]; cbn [orb].
    + exists comps, (cur ++ s_2e).
      split; [rewrite render_app, Hb, app_assoc; reflexivity|].
      split; [assumption|].
      split; [apply clean_app; auto; split; cbn; intuition discriminate|].
      split; [intros E; destruct cur; discriminate|].
      split.
      { intros Hn _. destruct (H2 Hn Hdp) as [-> Hne]. split; auto.
        rewrite rep_2e_snoc. f_equal. lia. }
      split; [intros _ _ E; destruct cur; discriminate|].
      split; [intros E; congruence|]. lia.
    + assert (dots = 0) as -> by lia.
      destruct nd; cbn [negb].
      * exists (comps ++ [cur]), [].
        assert (Hcur : cur <> []).
        { intros E. destruct (H1 E) as [E'|[_ E']]; [|lia].
          destruct (H4 E') as (_ & _ & E'' & _). discriminate. }
        split; [rewrite render_snoc, Hb, app_assoc; reflexivity|].
        split; [apply Forall_app; split; auto; constructor; [now apply safe_of_clean|constructor]|].
        split; [split; intros []|].
        split; [auto|].
        split; [intros _ _; split; [reflexivity|destruct comps; discriminate]|].
        split; [discriminate|].
        split; [intros E; congruence|]. lia.
      * exists comps, (cur ++ s_2e).
        split; [rewrite render_app, Hb, app_assoc; reflexivity|].
        split; [assumption|].
        split; [apply clean_app; auto; split; cbn; intuition discriminate|].
        split; [intros E; destruct cur; discriminate|].
        split; [discriminate|].
        split; [intros _ _ E; destruct cur; discriminate|].
        split; [intros E; congruence|]. lia.
  - (* other *)
    split; [lia|].
    set (tok := if ch =? c_slash then s_2f else if ch =? c_pct then s_25 else [ch]).
    assert (Htok : clean tok /\ tok <> []).
    { unfold tok. destruct (Z.eqb_spec ch c_slash); [split; [split; cbn; intuition discriminate|discriminate]|].
      destruct (Z.eqb_spec ch c_pct); [split; [split; cbn; intuition discriminate|discriminate]|].
      split; [split; cbn; intuition|discriminate]. }
    destruct Htok as [Htok Htokn].
    assert (Hbuf : forall b : list Z,
      (if ch =? c_slash then b ++ s_2f else if ch =? c_pct then b ++ s_25 else b ++ [ch]) = b ++ tok).
    { intros b. unfold tok. destruct (ch =? c_slash), (ch =? c_pct); reflexivity. }
    rewrite Hbuf.
    destruct (negb nd && (0 <? dots)) eqn:Eb.
    + apply andb_prop in Eb as [En Ed]. apply negb_true_iff in En. apply Z.ltb_lt in Ed. subst nd.
      exists (comps ++ [cur]), tok.
      split. { change tok with ([] ++ tok) at 2. rewrite render_app, render_snoc, Hb, !app_assoc. reflexivity. }
      split; [apply Forall_app; split; auto; constructor; [apply safe_of_clean; auto|constructor]|].
      split; [assumption|].
      split; [intros E; congruence|].
      split; [intros; lia|]. split; [discriminate|]. split; [intros E; congruence|discriminate].
    + exists comps, (cur ++ tok).
      split; [rewrite render_app, Hb, app_assoc; reflexivity|].
      split; [assumption|].
      split; [now apply clean_app|].
      split; [intros E; apply app_eq_nil in E; tauto|].
      split; [intros; lia|]. split; [discriminate|]. split; [intros E; congruence|discriminate].
Qed.

Lemma m2d_inv_loop base m : forall p st, m2d_inv base p st ->
  m2d_inv base (p ++ m) (fold_left m2d_step m st).
Proof.
  induction m as [|ch m IH]; intros p st H; cbn [fold_left].
  - now rewrite app_nil_r.
  - replace (p ++ ch :: m) with ((p ++ [ch]) ++ m) by (rewrite <- app_assoc; reflexivity).
    apply IH. now apply m2d_inv_step.
Qed.

Lemma m2d_inv_init base : m2d_inv base [] (base, false, 0).
Proof.
  split; [lia|]. exists [], []. unfold render. cbn. rewrite app_nil_r.
  repeat split; auto; try discriminate; try (intros []); lia.
Qed.

Lemma finish_append base p buf dots : m2d_inv base p (buf, true, dots) -> 0 < dots ->
  m2d_finish (buf, true, dots) = buf ++ s_2e.
Proof.
  intros (Hd & comps & cur & Hb & _ & _ & _ & H2 & _) Hp.
  destruct (H2 eq_refl Hp) as [-> Hne].
  unfold m2d_finish. destruct (Z.ltb_spec 0 dots); [|lia]. cbn [andb].
  destruct comps as [|x comps'] using rev_ind; [congruence|]. clear IHcomps'.
  assert (buf = (base ++ render comps' x) ++ [c_slash] ++ rep_2e (Z.to_nat (dots - 1))) as E.
  { change (rep_2e (Z.to_nat (dots - 1))) with ([] ++ rep_2e (Z.to_nat (dots - 1))) in Hb.
    rewrite render_app, render_snoc in Hb. rewrite Hb, <- !app_assoc. reflexivity. }
  rewrite E. set (B := base ++ render comps' x).
  replace (length (B ++ [c_slash] ++ rep_2e (Z.to_nat (dots - 1))) - Z.to_nat (1 + (dots - 1) * 3))%nat
    with (length B).
  2:{ rewrite !app_length, rep_2e_length. cbn [length]. lia. }
  rewrite firstn_app, firstn_all, Nat.sub_diag. cbn [firstn]. rewrite app_nil_r.
  rewrite <- !app_assoc. do 2 f_equal. rewrite rep_2e_snoc. f_equal. lia.
Qed.

(** output is a list of safe components after the initial buffer *)
Lemma metricToDir_render base m :
  exists comps cur, metricToDir base m = base ++ render comps cur /\
    Forall safe_component comps /\ clean cur /\
    (m <> [] -> cur <> []) /\ (m = [] -> comps = [] /\ cur = []).
Proof.
  pose proof (m2d_inv_loop base m [] _ (m2d_inv_init base)) as H. cbn [app] in H.
  unfold metricToDir. destruct (fold_left m2d_step m (base, false, 0)) as [[buf nd] dots].
  pose proof H as Hinv.
  destruct H as (Hd & comps & cur & Hb & Hs & Hc & H1 & H2 & H3 & H4 & H5).
  destruct nd.
  - destruct (Z.ltb_spec 0 dots) as [Hp|Hz].
    + rewrite (finish_append _ _ _ _ Hinv Hp).
      exists comps, (cur ++ s_2e). split; [rewrite render_app, Hb, app_assoc; reflexivity|].
      split; auto. split; [apply clean_app; auto; split; cbn; intuition discriminate|].
      split; [intros _ E; destruct cur; discriminate|].
      intros E. destruct (H4 E) as (_ & _ & E' & _). discriminate.
    + exists comps, cur. unfold m2d_finish.
      destruct (Z.ltb_spec 0 dots); [lia|]. cbn [andb].
      split; [assumption|]. split; [assumption|]. split; [assumption|]. split.
      * intros Hm E. destruct (H1 E) as [E'|[_ E']]; [congruence|lia].
      * intros E. destruct (H4 E) as (_ & _ & E' & _). discriminate.
  - exists comps, cur. unfold m2d_finish. rewrite andb_false_r.
    split; [assumption|]. split; [assumption|]. split; [assumption|]. split.
    + intros Hm. destruct (Z.eq_dec dots 0); [exfalso; apply Hm; now apply H5|].
      apply H3; auto. lia.
    + intros E. apply H4 in E. tauto.
Qed.

Lemma components_clean c : ~ In 47 c -> components c = [c].
Proof.
  induction c as [|x c IH]; intros H; cbn; auto.
  destruct (Z.eqb_spec x 47) as [->|]; [exfalso; apply H; now left|].
  rewrite IH; auto. intros Hi. apply H. now right.
Qed.

Lemma components_app c r : ~ In 47 c -> components (c ++ 47 :: r) = c :: components r.
Proof.
  induction c as [|x c IH]; intros H; cbn [app components].
  - reflexivity.
  - destruct (Z.eqb_spec x 47) as [->|]; [exfalso; apply H; now left|].
    rewrite IH; auto. intros Hi. apply H. now right.
Qed.

Lemma components_render comps cur : Forall safe_component comps -> clean cur ->
  components (render comps cur) = comps ++ [cur].
Proof.
  intros Hs Hc. induction Hs as [|c comps Hx _ IH]; unfold render in *; cbn [map concat app].
  - apply components_clean. apply Hc.
  - rewrite <- !app_assoc. cbn [app]. change c_slash with 47 in *.
    rewrite components_app by apply Hx. rewrite IH. reflexivity.
Qed.

Lemma metricToDir_components_ m : m <> [] ->
  Forall safe_component (components (metricToDir [] m)).
Proof.
  intros Hm. destruct (metricToDir_render [] m) as (comps & cur & E & Hs & Hc & H1 & _).
  rewrite E. cbn [app]. rewrite components_render by auto.
  apply Forall_app; split; auto. constructor; [|constructor]. apply safe_of_clean; auto.
Qed.

Lemma metricToDir_nil : metricToDir [] [] = [].
Proof. reflexivity. Qed.

Lemma metricToDir_base base m : metricToDir base m = base ++ metricToDir [] m.
Proof.
  assert (forall m b1 b2 nd dots,
    fold_left m2d_step m (b1 ++ b2, nd, dots) =
    let '(b, n, d) := fold_left m2d_step m (b2, nd, dots) in (b1 ++ b, n, d)) as L.
  { clear. induction m as [|ch m IH]; intros b1 b2 nd dots; cbn [fold_left]; auto.
    cbn [m2d_step]. destruct (ch =? c_dot).
    - destruct ((0 <? dots) || negb nd); rewrite <- app_assoc; apply IH.
    - destruct (negb nd && (0 <? dots)), (ch =? c_slash), (ch =? c_pct);
        rewrite <- ?app_assoc; rewrite IH; reflexivity. }
  pose proof (m2d_inv_loop [] m [] _ (m2d_inv_init [])) as I0.
  pose proof (m2d_inv_loop base m [] _ (m2d_inv_init base)) as I1.
  unfold metricToDir. specialize (L m base [] false 0). rewrite app_nil_r in L.
  rewrite L in *. destruct (fold_left m2d_step m ([], false, 0)) as [[b n] d].
  destruct n.
  - destruct (Z.ltb_spec 0 d).
    + rewrite (finish_append _ _ _ _ I0), (finish_append _ _ _ _ I1) by auto. now rewrite app_assoc.
    + unfold m2d_finish. destruct (Z.ltb_spec 0 d); [lia|reflexivity].
  - unfold m2d_finish. rewrite andb_false_r. reflexivity.
Qed.

(** round trip *)
Lemma d2m_other c r buf ld ad : c <> 47 -> c <> 37 -> c <> 46 ->
  d2m_loop (c :: r) buf ld ad = d2m_loop r (buf ++ [c]) false false.
Proof.
  intros. cbn [d2m_loop]. change c_slash with 47. change c_pct with 37. change c_dot with 46.
  rewrite !(proj2 (Z.eqb_neq _ _)) by auto. reflexivity.
Qed.

Lemma m2d_decode m : forall buf nd dots out, 0 <= dots ->
  (dots = 0 -> nd = false -> out = []) ->
  exists e, fst (fst (fold_left m2d_step m (buf, nd, dots))) = buf ++ e /\
  let '(_, nd', dots') := fold_left m2d_step m (buf, nd, dots) in
  forall r, d2m_loop (e ++ r) out (0 <? dots) (nd && (0 <? dots)) =
            d2m_loop r (out ++ m) (0 <? dots') (nd' && (0 <? dots')).
Proof.
  induction m as [|ch m IH]; intros buf nd dots out Hd Hout.
  - exists []. cbn. rewrite !app_nil_r. auto.
  - cbn [fold_left]. cbn [m2d_step].
    destruct (Z.eqb_spec ch c_dot) as [->|Hnd].
    + assert (Hd1 : (0 <? dots + 1) = true) by (apply Z.ltb_lt; lia).
      destruct (Z.ltb_spec 0 dots) as [Hp|Hz]; cbn [orb].
      * destruct (IH (buf ++ s_2e) nd (dots + 1) (out ++ [c_dot]) ltac:(lia) ltac:(lia)) as (e & E & H).
        exists (s_2e ++ e). split; [rewrite E, <- app_assoc; reflexivity|].
        destruct (fold_left _ _ _) as [[b' nd'] dots']. intros r.
        rewrite Hd1, andb_true_r in H. specialize (H r). rewrite <- app_assoc in H. cbn [app] in H.
        rewrite <- H, andb_true_r. rewrite <- app_assoc. reflexivity.
      * assert (dots = 0) as -> by lia. destruct nd; cbn [negb].
        -- destruct (IH (buf ++ [c_slash]) true (0 + 1) (out ++ [c_dot]) ltac:(lia) ltac:(lia)) as (e & E & H).
           exists (c_slash :: e). split; [rewrite E, <- app_assoc; reflexivity|].
           destruct (fold_left _ _ _) as [[b' nd'] dots']. intros r.
           specialize (H r). rewrite <- app_assoc in H. cbn [app] in H.
           change (0 <? 0 + 1) with true in H. cbn [andb] in H. rewrite <- H. reflexivity.
        -- destruct (IH (buf ++ s_2e) false (0 + 1) (out ++ [c_dot]) ltac:(lia) ltac:(lia)) as (e & E & H).
           exists (s_2e ++ e). split; [rewrite E, <- app_assoc; reflexivity|].
           destruct (fold_left _ _ _) as [[b' nd'] dots']. intros r.
           specialize (H r). rewrite <- app_assoc in H. cbn [app] in H.
           change (0 <? 0 + 1) with true in H. cbn [andb] in H. rewrite <- H. reflexivity.
    + set (tok := if ch =? c_slash then s_2f else if ch =? c_pct then s_25 else [ch]).
      assert (Hbuf : forall b : list Z,
        (if ch =? c_slash then b ++ s_2f else if ch =? c_pct then b ++ s_25 else b ++ [ch]) = b ++ tok).
      { intros b. unfold tok. destruct (ch =? c_slash), (ch =? c_pct); reflexivity. }
      rewrite Hbuf.
      assert (Htok : forall r out ld ad, d2m_loop (tok ++ r) out ld ad = d2m_loop r (out ++ [ch]) false false).
      { intros. unfold tok. destruct (Z.eqb_spec ch c_slash) as [->|]; [reflexivity|].
        destruct (Z.eqb_spec ch c_pct) as [->|]; [reflexivity|]. apply d2m_other; auto. }
      destruct (negb nd && (0 <? dots)) eqn:Eb.
      * apply andb_prop in Eb as [En Ed]. apply negb_true_iff in En. subst nd.
        destruct (IH ((buf ++ [c_slash]) ++ tok) true 0 (out ++ [ch]) ltac:(lia) ltac:(discriminate)) as (e & E & H).
        exists (c_slash :: tok ++ e).
        split; [rewrite E, <- !app_assoc; reflexivity|].
        destruct (fold_left _ _ _) as [[b' nd'] dots']. intros r.
        rewrite Ed. cbn [app d2m_loop andb]. change (c_slash =? c_slash) with true.
        cbn [negb]. rewrite <- app_assoc, Htok. specialize (H r). rewrite <- app_assoc in H. cbn [app] in H.
        rewrite <- H. reflexivity.
      * destruct (IH (buf ++ tok) true 0 (out ++ [ch]) ltac:(lia) ltac:(discriminate)) as (e & E & H).
        exists (tok ++ e).
        split; [rewrite E, <- !app_assoc; reflexivity|].
        destruct (fold_left _ _ _) as [[b' nd'] dots']. intros r.
        rewrite <- app_assoc, Htok. specialize (H r). rewrite <- app_assoc in H. cbn [app] in H.
        rewrite <- H. reflexivity.
Qed.

Lemma roundtrip_ m : dirToMetric (metricToDir [] m) = Ok m.
Proof.
  pose proof (m2d_inv_loop [] m [] _ (m2d_inv_init [])) as I0.
  destruct (m2d_decode m [] false 0 [] ltac:(lia) ltac:(auto)) as (e & E & H).
  unfold metricToDir, dirToMetric.
  destruct (fold_left m2d_step m ([], false, 0)) as [[b n] d]. cbn [fst] in E. cbn [app] in *. subst e.
  cbn [andb] in H. change (0 <? 0) with false in H.
  pose proof I0 as (Hd & _).
  destruct n.
  - destruct (Z.ltb_spec 0 d).
    + rewrite (finish_append _ _ _ _ I0) by auto. rewrite H.
      cbn [andb]. cbn [d2m_loop s_2e]. change (c_pct =? c_slash) with false. change (c_pct =? c_pct) with true.
      change (c_2 =? c_2) with true. change (c_e =? c_e) with true. cbn [negb bind].
      rewrite len_app. pose proof (len_nonneg b).
      replace (0 <? len b + len s_2e) with true by (symmetry; apply Z.ltb_lt; change (len s_2e) with 3; lia).
      cbn [andb]. f_equal. rewrite app_length. cbn [length].
      replace (length m + 1 - 1)%nat with (length m) by lia.
      rewrite firstn_app, firstn_all, Nat.sub_diag. cbn. apply app_nil_r.
    + unfold m2d_finish. destruct (Z.ltb_spec 0 d); [lia|]. cbn [andb].
      specialize (H []). rewrite app_nil_r in H. rewrite H. reflexivity.
  - unfold m2d_finish. rewrite andb_false_r. specialize (H []). rewrite app_nil_r in H. rewrite H. reflexivity.
Qed.

Lemma metricToDir_inj_ m m' : metricToDir [] m = metricToDir [] m' -> m = m'.
Proof.
  intros E. pose proof (roundtrip_ m) as H. rewrite E, roundtrip_ in H. now inversion H.
Qed.

(** decimal numbers *)
Lemma undigits_app a l1 l2 : undigits a (l1 ++ l2) =
  match undigits a l1 with Some v => undigits v l2 | None => None end.
Proof. revert a; induction l1 as [|c l1 IH]; intros a; cbn; auto. destruct (_ && _); auto. Qed.

Lemma digits_spec f : forall n acc, 0 <= n < 10 ^ Z.of_nat f -> (0 < f)%nat ->
  exists ds, digits f n acc = ds ++ acc /\ ds <> [] /\ undigits 0 ds = Some n /\
    Forall (fun c => 48 <= c <= 57) ds.
Proof.
  induction f as [|f IH]; intros n acc Hn Hf; [lia|].
  rewrite Nat2Z.inj_succ, Z.pow_succ_r in Hn by lia. cbn [digits].
  pose proof (Z.mod_pos_bound n 10 ltac:(lia)) as Hm.
  pose proof (Z.div_mod n 10 ltac:(lia)) as Hdm.
  destruct (Z.eqb_spec (n / 10) 0) as [e|ne].
  - exists [48 + n mod 10]. split; [reflexivity|]. split; [discriminate|].
    split; [|constructor; [lia|constructor]].
    cbn [undigits]. destruct (Z.leb_spec 48 (48 + n mod 10)), (Z.leb_spec (48 + n mod 10) 57); try lia.
    cbn [andb]. f_equal. lia.
  - destruct (IH (n / 10) ((48 + n mod 10) :: acc)) as (ds & E & Hne & U & F).
    + split; [apply Z.div_pos; lia|]. apply Z.div_lt_upper_bound; lia.
    + destruct f; [|lia]. cbn in Hn. exfalso. apply ne. apply Z.div_small. lia.
    + exists (ds ++ [48 + n mod 10]). rewrite E, <- app_assoc.
      split; [reflexivity|]. split; [destruct ds; discriminate|].
      split; [|apply Forall_app; split; auto; constructor; [lia|constructor]].
      rewrite undigits_app, U. cbn [undigits].
      destruct (Z.leb_spec 48 (48 + n mod 10)), (Z.leb_spec (48 + n mod 10) 57); try lia.
      cbn [andb]. f_equal. lia.
Qed.

Lemma itoa_spec n : is_i64 n -> parseInt (itoa n) = Some n /\ itoa n <> [] /\
  Forall (fun c => c = 45 \/ 48 <= c <= 57) (itoa n).
Proof.
  intros Hn. unfold is_i64 in Hn. unfold itoa.
  assert (In64 : in_i64 n = Some n).
  { unfold in_i64. destruct (Z.leb_spec (- 2 ^ 63) n), (Z.ltb_spec n (2 ^ 63)); try lia. reflexivity. }
  assert (P20 : 10 ^ Z.of_nat 20 = 100000000000000000000) by reflexivity.
  destruct (Z.ltb_spec n 0).
  - destruct (digits_spec 20 (- n) []) as (ds & E & Hne & U & F); [rewrite P20; lia|lia|].
    rewrite E, app_nil_r. split; [|split; [discriminate|]].
    + unfold parseInt. change (45 =? 45) with true. unfold undigits1. destruct ds as [|d0 ds0]; [congruence|].
      rewrite U. rewrite Z.opp_involutive. exact In64.
    + constructor; auto. eapply Forall_impl; [|exact F]. cbn beta. intros; lia.
  - destruct (digits_spec 20 n []) as (ds & E & Hne & U & F); [rewrite P20; lia|lia|].
    rewrite E, app_nil_r. split; [|split; [assumption|]].
    + destruct ds as [|c r]; [congruence|]. inversion F as [|? ? Hc Hr]; subst. unfold parseInt.
      destruct (Z.eqb_spec c 45); [lia|]. destruct (Z.eqb_spec c 43); [lia|].
      unfold undigits1. rewrite U. exact In64.
    + eapply Forall_impl; [|exact F]. cbn beta. intros; lia.
Qed.

Lemma itoa_inj n n' : is_i64 n -> is_i64 n' -> itoa n = itoa n' -> n = n'.
Proof.
  intros H H' E. pose proof (itoa_spec n H) as [P _]. pose proof (itoa_spec n' H') as [P' _].
  rewrite E in P. congruence.
Qed.

(** the name of data file [n] is recognised as number [n] *)
Lemma dataFileNumber_itoa n : is_i64 n -> dataFileNumber (itoa n ++ s_data) = Some n.
Proof.
  intros H. unfold dataFileNumber, hasSuffix. rewrite app_length. cbn [length s_data].
  replace (Nat.leb 5 (length (itoa n) + 5)) with true by (symmetry; apply Nat.leb_le; lia).
  replace (length (itoa n) + 5 - 5)%nat with (length (itoa n)) by lia.
  rewrite skipn_app, skipn_all, Nat.sub_diag. cbn [skipn app].
  rewrite beqb_refl. cbn [andb].
  rewrite firstn_app, firstn_all, Nat.sub_diag. cbn [firstn]. rewrite app_nil_r.
  now apply itoa_spec.
Qed.

Lemma app_inj_tail_sep (a a' b b' : list Z) :
  ~ In 47 b -> ~ In 47 b' -> a ++ 47 :: b = a' ++ 47 :: b' -> a = a' /\ b = b'.
Proof.
  revert a'. induction a as [|x a IH]; intros a' Hb Hb' E.
  - destruct a' as [|y a']; cbn in E; injection E.
    + intros ->. auto.
    + intros E' _. exfalso. apply Hb. rewrite E'. apply in_app_iff. right. now left.
  - destruct a' as [|y a']; cbn in E; injection E.
    + intros E' _. exfalso. apply Hb'. rewrite <- E'. apply in_app_iff. right. now left.
    + intros E' ->. destruct (IH a' Hb Hb' E') as [-> ->]. auto.
Qed.

Lemma filename_no_slash n : is_i64 n -> ~ In 47 (itoa n ++ s_data).
Proof.
  intros H Hin. apply in_app_iff in Hin as [Hin|Hin].
  - pose proof (itoa_spec n H) as (_ & _ & F). rewrite Forall_forall in F. apply F in Hin. lia.
  - cbn in Hin. intuition discriminate.
Qed.

Lemma metricToPath_inj_ m m' n n' : is_i64 n -> is_i64 n' ->
  metricToPath [] m n = metricToPath [] m' n' -> m = m' /\ n = n'.
Proof.
  intros Hn Hn' E. unfold metricToPath in E.
  pose proof (filename_no_slash n Hn) as S1. pose proof (filename_no_slash n' Hn') as S2.
  assert (K : forall m, (if 0 <? len (metricToDir [] m) then metricToDir [] m ++ [c_slash] else metricToDir [] m)
    = match m with [] => [] | _ => metricToDir [] m ++ [c_slash] end).
  { intros [|c x].
    - reflexivity.
    - destruct (metricToDir_render [] (c :: x)) as (comps & cur & E1 & _ & _ & H1 & _).
      destruct (Z.ltb_spec 0 (len (metricToDir [] (c :: x)))); auto.
      pose proof (len_nonneg (metricToDir [] (c :: x))).
      exfalso. apply H1; [discriminate|]. rewrite E1 in *. unfold render in *. rewrite !len_app in *.
      apply len_0_nil. pose proof (len_nonneg cur).
      pose proof (len_nonneg (concat (map (fun c0 : list Z => c0 ++ [c_slash]) comps))).
      change (len (@nil Z)) with 0 in *. lia. }
  rewrite !K in E. clear K.
  assert (forall a (x : list Z), itoa a ++ s_data <> [] ++ x -> True) by auto.
  destruct m as [|c m], m' as [|c' m'].
  - split; auto. cbn [app] in E.
    apply app_inv_tail in E. now apply itoa_inj.
  - exfalso. rewrite <- app_assoc in E. cbn [app] in E. apply S1. rewrite E. apply in_app_iff. right. now left.
  - exfalso. rewrite <- app_assoc in E. cbn [app] in E. apply S2. rewrite <- E. apply in_app_iff. right. now left.
  - rewrite <- !app_assoc in E. cbn [app] in E.
    apply app_inj_tail_sep in E as [E1 E2]; auto.
    split; [now apply metricToDir_inj_|]. apply app_inv_tail in E2. now apply itoa_inj.
Qed.
