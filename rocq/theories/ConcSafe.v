(** The programs of the calls never leave a stale handle behind, on a database
    that stores metrics (MetricProofs.Inv). *)
From Coq Require Import ZArith List Bool Lia.
From Verif Require Import Base Maps Record RecordSpec Meta Convert ConvertProofs File FileProofs Cache CacheProofs
  Metric MetricSpec MetricFile MetricPaths MetricProofs DbSpec LockPool Conc ConcFs ConcSim.
Import ListNotations.
Open Scope Z_scope.

(** ** the calls after the directory was found *)
Definition body (root : list Z) (max : Z) (o : op) : prog outcome :=
  let scan name := p_scan (metricDir root name) in
  match o with
  | OWrite name v =>
      pbind (pbind (scan name) (fun r => pdo m <- r; p_Write max m (v_start v) (v_end v) (v_data v))) (fun r => PRet (RWrite r))
  | OQuery name e =>
      pbind (pbind (scan name) (fun r =>
        match r with
        | Ok m => p_Read_ collect_cb (Z.to_nat (t_last m - t_first m + 1)) m (t_last m) e []
        | Err => PRet ([], Err) | Panic => PRet ([], Panic) | Diverge => PRet ([], Diverge)
        end)) (fun '(l, r) => PRet (RQuery l r))
  | OLatest name =>
      pbind (pbind (scan name) (fun r =>
        match r with
        | Ok m => p_Read_ latest_cb (Z.to_nat (t_last m - t_first m + 1)) m (t_last m) (2 ^ 63 - 1) None
        | Err => PRet (None, Err) | Panic => PRet (None, Panic) | Diverge => PRet (None, Diverge)
        end)) (fun '(x, r) => PRet (RLatest x r))
  | OReopen _ _ _ _ _ => PRet RReopen
  end.
Definition missing (o : op) : outcome :=
  match o with
  | OWrite _ _ => RWrite Err | OQuery _ _ => RQuery [] Err | OLatest _ => RLatest None Err | OReopen _ _ _ _ _ => RReopen
  end.
Definition writes (o : op) : bool := match o with OWrite _ _ => true | _ => false end.
Lemma prog_shape root max o : is_call o -> exists k k2,
  prog_of root max o = PExists (dir_of root (name_of o)) k /\ k true = body root max o /\
  k false = (if writes o then PMkdir (dir_of root (name_of o)) k2 else PRet (missing o)) /\
  k2 true = body root max o.
Proof.
  intros Hc. destruct o; [| | |contradiction Hc]; cbn [prog_of p_write p_query p_newMetric pbind name_of writes body missing];
    eexists _, _; (split; [reflexivity|]); (split; [reflexivity|]); (split; [reflexivity|]); try reflexivity.
  - instantiate (1 := fun _ => body root max (OQuery name end_)). reflexivity.
  - instantiate (1 := fun _ => body root max (OLatest name)). reflexivity.
Qed.

(** ** they are local *)
Lemma digits_chars : forall fuel n acc, Forall (fun c => 48 <= c <= 57) acc -> Forall (fun c => 48 <= c <= 57) (digits fuel n acc).
Proof.
  induction fuel as [|fuel IH]; intros n acc H; cbn [digits]; [exact H|].
  assert (Forall (fun c => 48 <= c <= 57) (48 + n mod 10 :: acc)).
  { constructor; [|exact H]. pose proof (Z.mod_pos_bound n 10 ltac:(lia)). lia. }
  destruct (n / 10 =? 0); auto.
Qed.
Lemma own_path root name i : root <> [] -> own (dir_of root name) (path_of root name i).
Proof.
  intros Hr. unfold own, child_of. rewrite path_shape by auto. rewrite split_last_app.
  - rewrite beqb_refl. discriminate.
  - intros Hin. apply in_app_iff in Hin. destruct Hin as [Hin|Hin].
    + unfold itoa in Hin.
      assert (F : forall n c, In c (digits 20 n []) -> 48 <= c <= 57).
      { intros n c Hc. pose proof (digits_chars 20 n [] ltac:(constructor)) as F. rewrite Forall_forall in F. auto. }
      destruct (i <? 0); [destruct Hin as [Hin|Hin]; [discriminate|]|]; apply F in Hin; lia.
    + cbn in Hin. intuition discriminate.
Qed.
Lemma own_other root name name' q : root <> [] -> own (dir_of root name) q -> own (dir_of root name') q -> name = name'.
Proof.
  unfold own, child_of. intros Hr. destruct (split_last q) as [[d' n]|]; [|contradiction].
  destruct (beqb d' (clean_dir (dir_of root name))) eqn:E1; [|contradiction].
  destruct (beqb d' (clean_dir (dir_of root name'))) eqn:E2; [|contradiction]. intros _ _.
  apply beqb_eq in E1, E2. apply (clean_dir_inj root); congruence.
Qed.

Section Local.
Variables (root name : list Z).
Hypothesis Hr : root <> [].
Let d := dir_of root name.
Lemma own_at m i : t_dir m = d -> own d (filenameAt m i).
Proof. intros E. unfold filenameAt. rewrite E. apply own_path, Hr. Qed.
Lemma local_on_ok {A X} (r : res A) (K : A -> prog (res X)) : (forall a, r = Ok a -> local d (K a)) -> local d (on_ok r PRet K).
Proof. intros H. destruct r; cbn; auto. Qed.

(** a bind whose first part only answers metrics of the directory *)
Fixpoint answers {X} (P : X -> Prop) (p : prog X) : Prop :=
  match p with
  | PRet x => P x
  | PExists _ k => forall a, answers P (k a)
  | PMkdir _ k => forall a, answers P (k a)
  | PScan _ k => forall a, answers P (k a)
  | PAcquire _ _ k | POpen _ _ k => forall a, answers P (k a)
  | PLoad _ k => forall a, answers P (k a)
  | PStore _ _ k | PRelease _ k | PEvict _ k | PRemove _ k => answers P k
  end.
Lemma local_bind2 {X Y} (P : X -> Prop) (p : prog X) (K : X -> prog Y) : local d p -> answers P p ->
  (forall x, P x -> local d (K x)) -> local d (pbind p K).
Proof. intros Hp HP HK. induction p; cbn [pbind local answers] in *; intuition auto. Qed.

Lemma local_scan : local d (p_scan d) /\ answers (fun r => forall m, r = Ok m -> t_dir m = d) (p_scan d).
Proof.
  split.
  - cbn [local p_scan]. split; [reflexivity|]. intros [[first last] []]; cbn [local]; [exact I|].
    split; [apply own_path, Hr|]. intros a. apply local_on_ok. intros x _. cbn [local]. split; [apply own_path, Hr|exact I].
  - cbn [answers p_scan]. intros [[first last] []]; cbn [answers]; [now intros m [= <-]|].
    intros [x| | |]; cbn [on_ok answers]; intros m [= <-]; reflexivity.
Qed.
Lemma local_read {A} (cb : callback A) e m : t_dir m = d -> forall fuel num acc, local d (p_Read_ cb fuel m num e acc).
Proof.
  intros Hm. induction fuel as [|fuel IH]; intros num acc; cbn [p_Read_].
  - destruct (num <? t_first m); exact I.
  - destruct (num <? t_first m); [exact I|]. cbn [local]. split; [now apply own_at|].
    intros [g| | |]; cbn [local]; auto. split; [now apply own_at|]. intros c.
    destruct (read_file cb g c e acc) as [acc1 r]. cbn [local]. split; [now apply own_at|].
    destruct r as [[]| | |]; cbn [local]; auto.
Qed.
Lemma local_acquireLast : forall fuel m, t_dir m = d -> local d (p_acquireLast_ fuel m) /\
  answers (fun r => forall g h m', r = Ok (g, h, m') -> t_dir m' = d) (p_acquireLast_ fuel m).
Proof.
  induction fuel as [|fuel IH]; intros m Hm; cbn [p_acquireLast_].
  - destruct (t_last m <? t_first m); (split; [exact I|]); cbn [answers]; intros; discriminate.
  - destruct (t_last m <? t_first m); [split; [exact I|]; cbn [answers]; intros; discriminate|].
    assert (Ho : forall i, own d (filenameAt m i)) by (intros i; now apply own_at).
    specialize (IH (Metric (t_dir m) (t_first m) (t_last m - 1)) Hm). destruct IH as [IH1 IH2]. split.
    + cbn [local]. split; [auto|]. intros a. apply local_on_ok. intros g _. cbn [local]. split; [auto|]. intros c.
      destruct (getHeadPointer g c) as [head| | |]; cbn [local]; auto.
      destruct (_ && _); cbn [local]; auto.
    + cbn [answers]. intros a. destruct a as [g| | |]; cbn [on_ok answers]; try (intros; discriminate). intros c.
      destruct (getHeadPointer g c) as [head| | |]; cbn [answers]; try (intros; discriminate).
      destruct (_ && _); cbn [answers]; [exact IH2|]. intros g' h' m' [= <- <- <-]. exact Hm.
Qed.
Lemma local_set_records q g : own d q -> forall recs head, local d (p_set_records q g head recs).
Proof.
  intros Hq. induction recs as [|r recs IH]; intros head; cbn [p_set_records local]; [exact I|].
  split; [exact Hq|]. intros c. apply local_on_ok. intros c' _. cbn [local]. auto.
Qed.
Lemma local_write_records q g head nr s e data : own d q -> local d (p_write_records q g head nr s e data).
Proof.
  intros Hq. unfold p_write_records. apply local_on_ok. intros recs _. apply local_bind; [now apply local_set_records|].
  intros r. apply local_on_ok. intros u _. cbn [local]. split; [exact Hq|]. intros c. apply local_on_ok. intros m _.
  apply local_on_ok. intros c' _. cbn [local]. auto.
Qed.
Lemma local_Write max m s e data : t_dir m = d -> local d (p_Write max m s e data).
Proof.
  intros Hm. unfold p_Write, p_acquireLast.
  destruct (local_acquireLast (Z.to_nat (t_last m - t_first m + 1)) m Hm) as [L1 L2].
  eapply local_bind2; [exact L1|exact L2|]. cbn beta. intros r Hdir. apply local_on_ok. intros [[g head] m'] ->.
  specialize (Hdir _ _ _ eq_refl). assert (Ho : forall i, own d (filenameAt m' i)) by (intros i; now apply own_at).
  apply local_bind; [|intros r; cbn [local]; auto].
  unfold p_write_with. cbn [local]. split; [auto|]. intros c.
  match goal with |- context[match ?x with Some _ => _ | None => _ end] => destruct x as [r|] end; [exact I|].
  apply local_on_ok. intros nr _. destruct (nr =? 0); [exact I|]. destruct (head + 1 - nr <? 0); [|now apply local_write_records].
  destruct (_ && _); [exact I|].
  match goal with |- context[if ?b then PEvict _ (PRemove _ ?rest) else _] => assert (R : local d rest) end.
  { cbn [local]. split; [auto|]. intros a. apply local_on_ok. intros g' _. apply local_bind; [|intros r; cbn [local]; auto].
    apply local_on_ok. intros nr2 _. destruct (nr2 =? 0); [exact I|]. destruct (g_cap g' - nr2 <? 0); [exact I|].
    now apply local_write_records. }
  destruct (_ && _); [cbn [local]; auto|exact R].
Qed.
End Local.

Lemma local_body root max o : root <> [] -> local (dir_of root (name_of o)) (body root max o).
Proof.
  intros Hr. destruct o as [name v|name e|name|]; cbn [body name_of]; [| | |exact I].
  - apply local_bind; [|intros r; exact I]. eapply local_bind2; [apply (local_scan root name Hr)..|]. cbn beta.
    intros r Hm. apply local_on_ok. intros m ->. apply local_Write; auto.
  - apply local_bind; [|intros [l r]; exact I]. eapply local_bind2; [apply (local_scan root name Hr)..|]. cbn beta.
    intros r Hm. destruct r as [m| | |]; try exact I. apply local_read; auto.
  - apply local_bind; [|intros [l r]; exact I]. eapply local_bind2; [apply (local_scan root name Hr)..|]. cbn beta.
    intros r Hm. destruct r as [m| | |]; try exact I. apply local_read; auto.
Qed.

(** ** safety with a postcondition *)
Section Wp.
Variables (size cap : Z) (nc : bool).
Fixpoint wp {X} (hs : list (list Z)) (ev : option (list Z)) (p : prog X) (f : fs) (Q : X -> list (list Z) -> fs -> Prop) : Prop :=
  match p with
  | PRet x => Q x hs f
  | PExists d k => wp hs None (k (exists0 d f)) f Q
  | PMkdir d k => let '(f', ok) := mkdir0 d f in wp hs None (k ok) f' Q
  | PScan d k => wp hs None (k (scan0 d f)) f Q
  | PAcquire q e k | POpen q e k =>
      (e = false -> fget q f = None) /\ ~ In q hs /\
      let '(f', r) := open0 size cap q e f in
      wp (match r with Ok _ => q :: hs | _ => hs end) None (k r) f' Q
  | PLoad q k => In q hs /\ wp hs None (k (fcont q f)) f Q
  | PStore q c k => In q hs /\ openFile c = openFile (fcont q f) /\ wp hs None k (fput q c f) Q
  | PRelease q k => In q hs /\ wp (filter (fun x => negb (beqb q x)) hs) None k f Q
  | PEvict q k => wp hs (Some q) k f Q
  | PRemove q k => (nc = true \/ ev = Some q) /\ ~ In q hs /\ wp hs None k (fdel q f) Q
  end.
Lemma wp_safe {X} (p : prog X) Q : forall hs ev f, wp hs ev p f Q -> safe size cap nc hs ev p f.
Proof.
  induction p; cbn [wp safe]; intros hs ev f H0; auto.
  - destruct (mkdir0 d f). auto.
  - destruct (open0 size cap q e f). destruct H0 as (A & B & C). auto.
  - destruct (open0 size cap q e f). destruct H0 as (A & B & C). auto.
  - destruct H0. auto.
  - destruct H0 as (A & B & C). auto.
  - destruct H0. auto.
  - destruct H0 as (A & B & C). auto.
Qed.
Lemma wp_ev {X} (p : prog X) Q hs ev f : wp hs None p f Q -> wp hs ev p f Q.
Proof.
  destruct p; cbn [wp]; auto. intros ([H|H] & H2); [auto|discriminate].
Qed.
Lemma wp_bind {X Y} (p : prog X) (K : X -> prog Y) Q : forall hs ev f,
  wp hs ev p f (fun x hs' f' => wp hs' None (K x) f' Q) -> wp hs ev (pbind p K) f Q.
Proof.
  induction p; cbn [wp pbind]; intros hs ev f H0; auto.
  - now apply wp_ev.
  - destruct (mkdir0 d f). auto.
  - destruct (open0 size cap q e f). destruct H0 as (A & B & C). auto.
  - destruct (open0 size cap q e f). destruct H0 as (A & B & C). auto.
  - destruct H0. auto.
  - destruct H0 as (A & B & C). auto.
  - destruct H0. auto.
  - destruct H0 as (A & B & C). auto.
Qed.
Lemma wp_conseq {X} (p : prog X) (Q Q' : X -> list (list Z) -> fs -> Prop) : (forall x hs f, Q x hs f -> Q' x hs f) ->
  forall hs ev f, wp hs ev p f Q -> wp hs ev p f Q'.
Proof.
  intros HQ. induction p; cbn [wp]; intros hs ev f H0; auto.
  - destruct (mkdir0 d f). auto.
  - destruct (open0 size cap q e f). destruct H0 as (A & B & C). auto.
  - destruct (open0 size cap q e f). destruct H0 as (A & B & C). auto.
  - destruct H0. auto.
  - destruct H0 as (A & B & C). auto.
  - destruct H0. auto.
  - destruct H0 as (A & B & C). auto.
Qed.
Lemma wp_on_ok {A X} (r : res A) (K : A -> prog (res X)) hs ev f Q :
  match r with
  | Ok a => wp hs ev (K a) f Q | Err => Q Err hs f | Panic => Q Panic hs f | Diverge => Q Diverge hs f
  end -> wp hs ev (on_ok r PRet K) f Q.
Proof. destruct r; auto. Qed.

(** ** reading *)
Lemma fcont_get q f c : fget q f = Some c -> fcont q f = c.
Proof. unfold fcont. now intros ->. Qed.
Lemma wp_read {A} (cb : callback A) e m (Q : A * res unit -> list (list Z) -> fs -> Prop) : forall fuel num acc f,
  (forall x, Q x [] f) -> wp [] None (p_Read_ cb fuel m num e acc) f Q.
Proof.
  induction fuel as [|fuel IH]; intros num acc f HQ; cbn [p_Read_].
  - destruct (num <? t_first m); cbn [wp]; auto.
  - destruct (num <? t_first m); [cbn [wp]; auto|]. cbn [wp open0]. split; [discriminate|]. split; [auto|].
    destruct (match fget (filenameAt m num) f with None => Err | Some c => openFile c end) as [g| | |]; cbn [wp]; auto.
    split; [now left|]. destruct (read_file cb g _ e acc) as [acc1 r]. cbn [wp]. split; [now left|].
    cbn [filter]. rewrite beqb_refl. cbn [negb]. destruct r as [[]| | |]; cbn [wp]; auto.
Qed.

(** ** storing *)
Definition wf (g : geom) (c : list Z) : Prop := exists slots m, rep g slots m c /\ m_size m = g_size g.
Lemma wf_open g c : wf g c -> openFile c = Ok g.
Proof. intros (s & m & H1 & H2). exact (rep_open _ _ _ _ H1 H2). Qed.

Lemma wp_set_records path g hs : In path hs -> forall recs head f c (Q : res unit -> list (list Z) -> fs -> Prop),
  fget path f = Some c -> wf g c -> Forall (fun r => record_ok r /\ rec_Size r <= g_size g) recs ->
  (forall r f' c', fget path f' = Some c' -> wf g c' -> Q r hs f') ->
  forall ev, wp hs ev (p_set_records path g head recs) f Q.
Proof.
  intros Hin. induction recs as [|r recs IH]; intros head f c Q Hf Hw HF HQ ev; cbn [p_set_records wp].
  - eauto.
  - split; [exact Hin|]. rewrite (fcont_get _ _ _ Hf). inversion HF as [|? ? [Hr Hsz] HF']; subst.
    destruct (Z.leb_spec (g_cap g) head) as [Hhi|Hhi].
    { unfold f_set_record. rewrite (proj2 (Z.leb_le _ _) Hhi). cbn [orb on_ok wp]. eauto. }
    destruct (Z.ltb_spec head 0) as [Hlo|Hlo].
    { unfold f_set_record. rewrite (proj2 (Z.ltb_lt _ _) Hlo), orb_true_r. cbn [on_ok wp]. eauto. }
    pose proof Hw as (slots & m & HR & Hm).
    destruct (rep_set g slots m c head r HR ltac:(lia) Hr Hsz) as (c' & -> & HR'). cbn [on_ok wp].
    assert (Hw' : wf g c') by (eexists _, _; eauto).
    split; [exact Hin|]. rewrite (fcont_get _ _ _ Hf). split; [now rewrite !(wf_open g)|].
    apply (IH _ _ c'); auto. rewrite fget_put, beqb_refl. reflexivity.
Qed.

Lemma wp_write_records path g head nr v hs f c ev (Q : res bool -> list (list Z) -> fs -> Prop) : In path hs ->
  fget path f = Some c -> wf g c -> 79 <= g_size g < 65560 -> val_ok v -> is_i64 (head - nr - 1) ->
  (forall r f', Q r hs f') ->
  wp hs ev (p_write_records path g head nr (v_start v) (v_end v) (v_data v)) f Q.
Proof.
  intros Hin Hf Hw Hs Hv Hh HQ. destruct (recs_spec (g_size g) v Hs Hv) as (E & _ & _ & _ & _ & _ & F).
  unfold p_write_records. rewrite E. cbn [on_ok]. apply wp_bind.
  eapply (wp_set_records path g hs Hin _ _ f c); eauto.
  { eapply Forall_impl; [|exact F]. cbn. tauto. }
  intros r f' c' Hf' Hw'. cbn beta. apply wp_on_ok. destruct r as [u| | |]; auto. cbn [wp].
  split; [exact Hin|]. rewrite (fcont_get _ _ _ Hf'). pose proof Hw' as (slots & m & HR & Hm).
  rewrite (rep_meta _ _ _ _ HR). cbn [on_ok].
  assert (Hmo : meta_ok (next_meta m (head - nr - 1) (v_start v) (v_end v))).
  { pose proof HR as (_ & _ & _ & _ & (M1 & M2 & M3 & M4 & M5) & _).
    destruct Hv as (V1 & V2 & V3 & V4). unfold meta_ok, next_meta. cbn [m_size m_head m_start m_end m_smallest]. 
    split; [exact M1|]. split; [exact Hh|]. split; [destruct (m_start m =? 0); assumption|]. split; [assumption|].
    destruct (_ || _); assumption. }
  destruct (rep_set_meta _ _ _ _ _ HR Hmo) as (c2 & -> & HR2). cbn [on_ok wp].
  split; [exact Hin|]. rewrite (fcont_get _ _ _ Hf'). split; [|auto].
  rewrite (wf_open g c' Hw'). apply (rep_open _ _ _ _ HR2). cbn [next_meta m_size]. exact Hm.
Qed.

(** ** one metric's files *)
Variables (root name : list Z).
Hypothesis Hr : root <> [].
Let path i := path_of root name i.
Lemma path_ne i j : is_i64 i -> is_i64 j -> i <> j -> path i <> path j.
Proof. intros Hi Hj Hne E. apply path_inj in E; tauto. Qed.

Definition mfiles (m : metric) (f : fs) : Prop :=
  t_dir m = dir_of root name /\ 1 <= t_first m <= t_last m /\ t_last m < 2 ^ 62 /\
  (forall i, t_first m <= i <= t_last m -> exists af c, fget (path i) f = Some c /\ file_rep af c) /\
  (forall i, t_last m < i < 2 ^ 63 -> fget (path i) f = None).
(** the newest file holds something if there is an older one *)
Definition newest (m : metric) (f : fs) : Prop :=
  t_first m < t_last m -> forall af c, fget (path (t_last m)) f = Some c -> file_rep af c -> 0 < used af.

Lemma rep_wf af c : file_rep af c -> wf (geom_of af) c.
Proof. intros (_ & m & HR & Hm & _). eexists _, _. split; [exact HR|exact Hm]. Qed.
Lemma mfiles_name m f i : mfiles m f -> filenameAt m i = path i.
Proof. intros (E & _). unfold filenameAt, path, path_of. now rewrite E. Qed.

Lemma wp_acquireLast : forall fuel m f ev (Q : res (geom * Z * metric) -> list (list Z) -> fs -> Prop),
  mfiles m f -> nc = true \/ newest m f ->
  (forall hs f', Q Err hs f') -> (forall hs f', Q Diverge hs f') ->
  (forall m' f' af c, mfiles m' f' -> fget (path (t_last m')) f' = Some c -> file_rep af c ->
     Q (Ok (geom_of af, a_cap af - used af - 1, m')) [path (t_last m')] f') ->
  wp [] ev (p_acquireLast_ fuel m) f Q.
Proof.
  induction fuel as [|fuel IH]; intros m f ev Q Hm Hn HE HD HQ; cbn [p_acquireLast_].
  - destruct (t_last m <? t_first m); cbn [wp]; auto.
  - destruct (t_last m <? t_first m); [cbn [wp]; auto|]. cbn [wp open0]. split; [discriminate|]. split; [auto|].
    pose proof Hm as (Hd & Hb1 & Hb2 & Hex & Habs). destruct (Hex (t_last m) ltac:(lia)) as (af & c & Hf & Hrep).
    rewrite (mfiles_name m f _ Hm), Hf, (file_rep_open af c Hrep). cbn [on_ok wp]. split; [now left|].
    rewrite (fcont_get _ _ _ Hf), (file_rep_head af c Hrep). cbn [g_cap geom_of].
    destruct (Z.eqb_spec (a_cap af - used af - 1) (a_cap af - 1)) as [Eu|Eu]; cbn [andb].
    2:{ cbn [wp]. eauto. }
    destruct (Z.ltb_spec (t_first m) (t_last m)) as [Hlt|Hge].
    2:{ cbn [wp]. eauto. }
    assert (nc = true) as Hnc.
    { destruct Hn as [Hn|Hn]; [exact Hn|]. specialize (Hn Hlt af c Hf Hrep). lia. }
    cbn [wp]. split; [now left|]. cbn [filter]. rewrite beqb_refl. cbn [negb]. split; [now left|]. split; [auto|].
    apply IH; auto. split; [exact Hd|]. cbn [t_first t_last t_dir]. split; [lia|]. split; [lia|]. split.
    + intros i Hi. destruct (Hex i ltac:(lia)) as (af' & c' & Hf' & Hrep'). exists af', c'. split; [|exact Hrep'].
      rewrite fget_del, (proj2 (beqb_neq _ _)); [exact Hf'|]. apply path_ne; unfold is_i64; lia.
    + intros i Hi. rewrite fget_del. destruct (beqb (path (t_last m)) (path i)) eqn:E; [reflexivity|].
      apply Habs. assert (i <> t_last m) by (intros ->; now rewrite beqb_refl in E). lia.
Qed.

Lemma used_range af : afile_ok af -> 0 <= used af <= a_cap af /\ 79 <= a_size af < 65560 /\ 1 <= a_cap af < 2 ^ 31.
Proof.
  intros ((Hs & Hc & Hp) & _ & Hu & _). pose proof (used_nonneg (a_size af) (a_vals af) ltac:(lia)) as H0. fold (used af) in H0.
  split; [lia|]. split; [exact Hs|]. nia.
Qed.

Lemma wp_write_with max m af c v f ev (Q : res bool -> list (list Z) -> fs -> Prop) : opts_ok size cap ->
  mfiles m f -> fget (path (t_last m)) f = Some c -> file_rep af c -> val_ok v ->
  (forall r hs f', In (path (t_last m)) hs -> Q r hs f') ->
  wp [path (t_last m)] ev (p_write_with max m (geom_of af) (a_cap af - used af - 1) (v_start v) (v_end v) (v_data v)) f Q.
Proof.
  intros Hopts Hm Hf Hrep Hv HQ. unfold p_write_with. rewrite !(mfiles_name m f _ Hm). cbn [wp].
  pose proof Hm as (Hd & Hb1 & Hb2 & Hex & Habs). pose proof Hrep as (Hok & _).
  destruct (used_range af Hok) as (Hu & Hs & Hc). split; [now left|].
  assert (Hin : In (path (t_last m)) [path (t_last m)]) by now left.
  match goal with |- context[match ?x with Some _ => _ | None => _ end] => destruct x as [r|] end; [cbn [wp]; auto|].
  destruct (recs_spec (a_size af) v Hs Hv) as (_ & En & _ & Hnr & _). cbn [g_size g_cap geom_of]. rewrite En. cbn [on_ok].
  destruct (nrec (a_size af) v =? 0); [cbn [wp]; auto|].
  destruct (Z.ltb_spec (a_cap af - used af - 1 + 1 - nrec (a_size af) v) 0) as [Hneg|Hpos].
  2:{ eapply wp_write_records; eauto; [now apply rep_wf|unfold is_i64; lia]. }
  destruct ((t_last m =? 1) && _); [cbn [wp]; auto|].
  set (rest := PAcquire _ false _).
  assert (R : forall f', fget (path (t_last m + 1)) f' = None -> wp [path (t_last m)] None rest f' Q).
  { intros f' Habs'. unfold rest. cbn [wp]. split; [auto|].
    assert (Hne : path (t_last m) <> path (t_last m + 1)) by (apply path_ne; unfold is_i64; lia).
    split; [intros [E|[]]; contradiction|].
    destruct (rep_create size cap Hopts) as (c0 & Ec & HR0). cbn [open0]. rewrite Ec. cbn [on_ok].
    pose proof Hopts as (Hs0 & Hc0 & Hp0).
    apply wp_bind. cbn [g_size g_cap]. destruct (recs_spec size v Hs0 Hv) as (_ & -> & _ & Hnr0 & _). cbn [on_ok].
    assert (Rel : forall (r : res bool) f2, wp [path (t_last m + 1); path (t_last m)] None (PRelease (path (t_last m + 1)) (PRet r)) f2 Q).
    { intros r f2. cbn [wp]. split; [now left|]. apply HQ. cbn [filter]. rewrite beqb_refl. cbn [negb].
      rewrite (proj2 (beqb_neq _ _)) by congruence. now left. }
    destruct (nrec size v =? 0); [cbn [wp]; auto; apply Rel|]. destruct (Z.ltb_spec (cap - nrec size v) 0) as [|Hfit]; [apply Rel|].
    eapply wp_write_records; auto.
    - now left.
    - rewrite fget_put, beqb_refl. reflexivity.
    - exists (repeat None (Z.to_nat cap)), (Meta size (cap - 1) 0 0 0). split; [exact HR0|reflexivity].
    - unfold is_i64. nia. }
  destruct ((max <=? t_last m - t_first m) && (0 <? max)) eqn:Eb.
  - apply andb_true_iff in Eb. destruct Eb as [Eb1 Eb2]. apply Z.leb_le in Eb1. apply Z.ltb_lt in Eb2. cbn [wp].
    split; [now right|]. split. { intros [E|[]]. revert E. apply path_ne; unfold is_i64; lia. }
    apply R. rewrite fget_del. destruct (beqb _ _); [reflexivity|]. apply Habs. lia.
  - apply wp_ev, R, Habs. lia.
Qed.

Lemma wp_Write max m v f (Q : res bool -> list (list Z) -> fs -> Prop) : opts_ok size cap ->
  mfiles m f -> nc = true \/ newest m f -> val_ok v -> (forall r hs f', Q r hs f') ->
  wp [] None (p_Write max m (v_start v) (v_end v) (v_data v)) f Q.
Proof.
  intros Hopts Hm Hn Hv HQ. unfold p_Write, p_acquireLast. apply wp_bind. apply wp_acquireLast; auto; cbn [on_ok wp]; auto.
  intros m' f' af c Hm' Hf' Hrep. apply wp_bind. eapply wp_write_with; eauto.
  intros r hs f2 Hin. cbn [wp]. rewrite (mfiles_name m' f' _ Hm'). auto.
Qed.
End Wp.

(** ** safety of the calls *)
Definition op_val (o : op) : Prop := match o with OWrite _ v => val_ok v | _ => True end.
Lemma safe_body n st D A f nc max o : Inv n st D A -> n + 1 < 2 ^ 62 -> sees st f -> world st -> nc = true \/ Good A -> op_val o ->
  safe (w_size st) (w_cap st) nc [] None (body (w_root st) max o) f.
Proof.
  intros HI Hn Se W HG Ho. pose proof (i_root _ _ _ _ HI) as Hr. pose proof (i_opts _ _ _ _ HI) as Hopts.
  pose proof (i_bound _ _ _ _ HI) as Hbd.
  assert (Scan : forall name (Q : res metric -> list (list Z) -> fs -> Prop),
    (forall m f', mfiles (w_root st) name m f' -> nc = true \/ newest (w_root st) name m f' -> Q (Ok m) [] f') ->
    wp (w_size st) (w_cap st) nc [] None (p_scan (dir_of (w_root st) name)) f Q).
  { intros name Q HQ. cbn [wp p_scan]. rewrite <- (sees_scan st f name W Se).
    destruct (A name) as [am|] eqn:HA.
    - destruct (i_num _ _ _ _ HI name am HA) as (H1 & H2 & H3).
      assert (Hle : a_first am <= a_last am).
      { unfold a_last, len. destruct (a_files am); [contradiction|cbn [length]; lia]. }
      rewrite (scan_range _ (a_first am) (a_last am)); [|lia|..].
      2:{ intros i Hi. apply (listing n st D A name i HI) in Hi. destruct Hi as (am' & HA' & Hrg). congruence. }
      2:{ apply (listing n st D A name _ HI). exists am. split; [auto|lia]. }
      2:{ apply (listing n st D A name _ HI). exists am. split; [auto|lia]. }
      assert (Hget : forall i, a_first am <= i <= a_last am -> exists k af c,
          i = a_last am - Z.of_nat k /\ nth_error (a_files am) k = Some af /\ fget (path_of (w_root st) name i) f = Some c /\ file_rep af c).
      { intros i Hi. set (k := Z.to_nat (a_last am - i)).
        assert (Hk : (k < length (a_files am))%nat) by (unfold a_last, len in *; lia).
        destruct (nth_error (a_files am) k) as [af|] eqn:Ef; [|apply nth_error_None in Ef; lia].
        destruct (i_file _ _ _ _ HI name am k af HA Ef) as (ino & c & P1 & P2 & P3).
        replace (a_last am - Z.of_nat k) with i in P1 by lia. exists k, af, c. split; [lia|]. split; [exact Ef|]. split; [|exact P3].
        destruct Se as [S1 _]. rewrite S1, P1. cbn [option_map]. unfold contents. now rewrite P2. }
      cbn [wp]. apply HQ.
      + split; [reflexivity|]. cbn [t_first t_last]. split; [lia|]. split; [lia|]. split.
        * intros i Hi. destruct (Hget i Hi) as (k & af & c & _ & _ & G1 & G2). eauto.
        * intros i Hi. destruct Se as [S1 _]. rewrite S1. destruct (mget beqb _ (w_files st)) as [ino|] eqn:E; [|reflexivity]. exfalso.
          destruct (i_paths _ _ _ _ HI _ _ E) as (_ & name' & am' & j & Ep & HA' & Hj).
          symmetry in Ep. destruct (path_neq st n D A name' am' j name i HI HA' Hj ltac:(unfold is_i64; lia) Ep) as [-> ->].
          assert (am' = am) by congruence. subst am'. lia.
      + destruct HG as [HG|HG]; [now left|right]. intros Hlt af c G1 G2. cbn [t_first t_last] in *.
        destruct (Hget (a_last am) ltac:(lia)) as (k & af' & c' & Ek & Ef & G3 & G4).
        assert (k = 0%nat) by lia. subst k. assert (c' = c) by congruence. subst c'.
        destruct (HG name am HA) as (_ & _ & Hall). destruct (a_files am) as [|x [|y older]] eqn:Ea; [discriminate| |].
        * unfold a_last in Hlt. rewrite Ea in Hlt. change (len [x]) with 1 in Hlt. lia.
        * cbn in Ef. injection Ef as ->. change (removelast (af' :: y :: older)) with (af' :: removelast (y :: older)) in Hall.
          inversion Hall; subst.
          assert (Hg : geom_of af = geom_of af').
          { pose proof (file_rep_open _ _ G2). pose proof (file_rep_open _ _ G4). congruence. }
          pose proof (file_rep_head _ _ G2) as E2. pose proof (file_rep_head _ _ G4) as E4. rewrite Hg in E2.
          assert (a_cap af = a_cap af') by (unfold geom_of in Hg; congruence).
          assert (used af = used af') as -> by (assert (a_cap af - used af - 1 = a_cap af' - used af' - 1) by congruence; lia).
          destruct G4 as (((Hs & _) & _) & _). unfold used. destruct (a_vals af') as [|v0 vs]; [contradiction|].
          cbn [used_]. pose proof (nrec_pos (a_size af') v0 ltac:(lia)). pose proof (used_nonneg (a_size af') vs ltac:(lia)). lia.
    - rewrite scan_none by now apply (numbers_none n st D A name). cbn [wp].
      assert (Habs : forall i, is_i64 i -> fget (path_of (w_root st) name i) f = None).
      { intros i Hi. destruct Se as [S1 _]. rewrite S1. destruct (mget beqb _ (w_files st)) as [ino|] eqn:E; [|reflexivity]. exfalso.
        destruct (i_paths _ _ _ _ HI _ _ E) as (_ & name' & am' & j & Ep & HA' & Hj).
        symmetry in Ep. destruct (path_neq st n D A name' am' j name i HI HA' Hj Hi Ep) as [-> ->]. congruence. }
      fold (path_of (w_root st) name 1). split; [intros _; apply Habs; unfold is_i64; lia|]. split; [auto|].
      destruct (file_rep_fresh (w_size st) (w_cap st) Hopts) as (c & Ec & Hrep). cbn [open0]. rewrite Ec. cbn [on_ok wp].
      split; [now left|]. cbn [filter]. rewrite beqb_refl. cbn [negb]. apply HQ.
      + split; [reflexivity|]. cbn [t_first t_last]. split; [lia|]. split; [lia|]. split.
        * intros i Hi. assert (i = 1) by lia. subst i. eexists _, c. rewrite fget_put, beqb_refl. split; [reflexivity|exact Hrep].
        * intros i Hi. rewrite fget_put, (proj2 (beqb_neq _ _)); [apply Habs; unfold is_i64; lia|].
          intros E9; apply path_inj in E9; [lia|exact Hr|unfold is_i64; lia|unfold is_i64; lia].
      + right. intros Hlt. cbn [t_first t_last] in Hlt. lia. }
  destruct o as [name v|name e|name|]; cbn [body]; [| | |exact I]; fold (dir_of (w_root st) name);
    apply wp_safe with (Q := fun _ _ _ => True); apply wp_bind, wp_bind, Scan; intros m f' Hm Hnew.
  - cbn [on_ok]. eapply wp_Write; eauto. intros r hs f2. exact I.
  - apply wp_read. intros [l r]. exact I.
  - apply wp_read. intros [l r]. exact I.
Qed.
