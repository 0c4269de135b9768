(** Programs of Conc.v run alone on a file system without inodes, handles and
    caches; what they depend on. *)
From Coq Require Import ZArith List Bool Lia.
From Verif Require Import Base Maps Record Meta Convert File Cache Metric MetricPaths MetricProofs DbSpec LockPool Conc.
Import ListNotations.
Open Scope Z_scope.

Record fs := FS { fs_files : list (list Z * list Z); fs_dirs : list (list Z) }.
Definition fget (q : list Z) (f : fs) : option (list Z) := mget beqb q (fs_files f).
Definition fput (q c : list Z) (f : fs) : fs := FS (mput beqb q c (fs_files f)) (fs_dirs f).
Definition fdel (q : list Z) (f : fs) : fs := FS (mdel beqb q (fs_files f)) (fs_dirs f).
Definition fcont (q : list Z) (f : fs) : list Z := match fget q f with Some c => c | None => [] end.

Definition exists0 (d : list Z) (f : fs) : bool := (0 <? len d) && existsb (beqb (clean_dir d)) (fs_dirs f).
Definition mkdir0 (d : list Z) (f : fs) : fs * bool :=
  if len d =? 0 then (f, false) else (FS (fs_files f) (ancestors [] (clean_dir d) ++ fs_dirs f), true).
Definition scan0 (d : list Z) (f : fs) : Z * Z * bool :=
  fold_left scan_step (flat_map (child_of (clean_dir d)) (map fst (fs_files f))) (0, 0, false).
Definition open0 (size cap : Z) (q : list Z) (e : bool) (f : fs) : fs * res geom :=
  if e then (f, match fget q f with None => Err | Some c => openFile c end)
  else let '(c, r) := createFile size cap in (fput q c f, r).

Section Run.
Variables size cap : Z.

Fixpoint run0 {X} (p : prog X) (f : fs) : fs * X :=
  match p with
  | PRet x => (f, x)
  | PExists d k => run0 (k (exists0 d f)) f
  | PMkdir d k => let '(f', ok) := mkdir0 d f in run0 (k ok) f'
  | PScan d k => run0 (k (scan0 d f)) f
  | PAcquire q e k | POpen q e k => let '(f', r) := open0 size cap q e f in run0 (k r) f'
  | PLoad q k => run0 (k (fcont q f)) f
  | PStore q c k => run0 k (fput q c f)
  | PRelease q k => run0 k f
  | PEvict q k => run0 k f
  | PRemove q k => run0 k (fdel q f)
  end.

Lemma run0_bind {X Y} (p : prog X) (K : X -> prog Y) : forall f,
  run0 (pbind p K) f = let '(f', x) := run0 p f in run0 (K x) f'.
Proof.
  induction p; intros f; cbn [pbind run0]; auto.
  - destruct (mkdir0 d f). auto.
  - destruct (open0 size cap q e f). auto.
  - destruct (open0 size cap q e f). auto.
Qed.

(** the run never does what would leave a stale handle behind: [hs] are the
    paths it has acquired, [ev] the path it has just evicted; [nc]: the cache
    keeps nothing *)
Fixpoint safe {X} (nc : bool) (hs : list (list Z)) (ev : option (list Z)) (p : prog X) (f : fs) : Prop :=
  match p with
  | PRet x => True
  | PExists d k => safe nc hs None (k (exists0 d f)) f
  | PMkdir d k => let '(f', ok) := mkdir0 d f in safe nc hs None (k ok) f'
  | PScan d k => safe nc hs None (k (scan0 d f)) f
  | PAcquire q e k | POpen q e k =>
      (e = false -> fget q f = None) /\ ~ In q hs /\
      let '(f', r) := open0 size cap q e f in
      safe nc (match r with Ok _ => q :: hs | _ => hs end) None (k r) f'
  | PLoad q k => In q hs /\ safe nc hs None (k (fcont q f)) f
  | PStore q c k => In q hs /\ openFile c = openFile (fcont q f) /\ safe nc hs None k (fput q c f)
  | PRelease q k => In q hs /\ safe nc (filter (fun x => negb (beqb q x)) hs) None k f
  | PEvict q k => safe nc hs (Some q) k f
  | PRemove q k => (nc = true \/ ev = Some q) /\ ~ In q hs /\ safe nc hs None k (fdel q f)
  end.

(** paths in directory [d] *)
Definition own (d q : list Z) : Prop := child_of (clean_dir d) q <> [].
(** programs that only touch files in [d] *)
Fixpoint local {X} (d : list Z) (p : prog X) : Prop :=
  match p with
  | PRet x => True
  | PExists _ _ | PMkdir _ _ => False
  | PScan d' k => d' = d /\ forall a, local d (k a)
  | PAcquire q e k | POpen q e k => own d q /\ forall a, local d (k a)
  | PLoad q k => own d q /\ forall a, local d (k a)
  | PStore q c k => own d q /\ local d k
  | PRelease q k => own d q /\ local d k
  | PEvict q k => own d q /\ local d k
  | PRemove q k => own d q /\ local d k
  end.
Lemma local_bind {X Y} d (p : prog X) (K : X -> prog Y) : local d p -> (forall x, local d (K x)) -> local d (pbind p K).
Proof. intros Hp HK. induction p; cbn [pbind local] in *; intuition auto. Qed.

(** ** agreement *)
Definition agree (d : list Z) (f g : fs) : Prop := forall q, own d q -> fget q f = fget q g.
Lemma agree_refl d f : agree d f f. Proof. intros q _. reflexivity. Qed.
Lemma agree_sym d f g : agree d f g -> agree d g f. Proof. intros H q Hq. symmetry. auto. Qed.
Lemma agree_trans d f g h : agree d f g -> agree d g h -> agree d f h.
Proof. intros H1 H2 q Hq. rewrite H1; auto. Qed.

Lemma fget_put q c f q' : fget q' (fput q c f) = if beqb q q' then Some c else fget q' f.
Proof. apply mget_put, eqb_ok_bytes. Qed.
Lemma fget_del q f q' : fget q' (fdel q f) = if beqb q q' then None else fget q' f.
Proof. apply mget_del, eqb_ok_bytes. Qed.
Lemma agree_put d q c f g : agree d f g -> agree d (fput q c f) (fput q c g).
Proof. intros H x Hx. rewrite !fget_put. destruct (beqb q x); auto. Qed.
Lemma agree_del d q f g : agree d f g -> agree d (fdel q f) (fdel q g).
Proof. intros H x Hx. rewrite !fget_del. destruct (beqb q x); auto. Qed.

Lemma fold_min_spec l : forall f, In (fold_left Z.min l f) (f :: l) /\ forall x, In x (f :: l) -> fold_left Z.min l f <= x.
Proof.
  induction l as [|a l IH]; intros f; cbn [fold_left].
  - split; [now left|]. intros x [->|[]]. lia.
  - destruct (IH (Z.min f a)) as [H1 H2]. split.
    + destruct H1 as [H1|H1]; [|right; now right]. rewrite <- H1. destruct (Z.min_spec f a) as [[_ ->]|[_ ->]]; [now left|right; now left].
    + intros x [<-|[<-|Hx]].
      * specialize (H2 (Z.min f a) (or_introl eq_refl)). lia.
      * specialize (H2 (Z.min f a) (or_introl eq_refl)). lia.
      * apply H2. now right.
Qed.
Lemma fold_max_spec l : forall f, In (fold_left Z.max l f) (f :: l) /\ forall x, In x (f :: l) -> x <= fold_left Z.max l f.
Proof.
  induction l as [|a l IH]; intros f; cbn [fold_left].
  - split; [now left|]. intros x [->|[]]. lia.
  - destruct (IH (Z.max f a)) as [H1 H2]. split.
    + destruct H1 as [H1|H1]; [|right; now right]. rewrite <- H1. destruct (Z.max_spec f a) as [[_ ->]|[_ ->]]; [right; now left|now left].
    + intros x [<-|[<-|Hx]].
      * specialize (H2 (Z.max f a) (or_introl eq_refl)). lia.
      * specialize (H2 (Z.max f a) (or_introl eq_refl)). lia.
      * apply H2. now right.
Qed.
(** the outcome of the scan by its numbers *)
Lemma scan_char nums : fold_left scan_num nums (0, 0, false) =
  match nums with [] => (0, 0, false) | n :: r => (fold_left Z.min r n, fold_left Z.max r (Z.max 0 n), true) end.
Proof.
  destruct nums as [|n r]; [reflexivity|]. cbn [fold_left]. unfold scan_num at 2. cbn [negb]. rewrite orb_true_r, scan_set_spec.
  do 2 f_equal. f_equal. destruct (Z.ltb_spec 0 n); lia.
Qed.
Lemma scan_ext n1 n2 : (forall i, In i (numbers n1) <-> In i (numbers n2)) ->
  fold_left scan_step n1 (0, 0, false) = fold_left scan_step n2 (0, 0, false).
Proof.
  intros H. rewrite !scan_numbers, !scan_char. destruct (numbers n1) as [|a l1], (numbers n2) as [|b l2].
  - reflexivity.
  - destruct (proj2 (H b) (or_introl eq_refl)).
  - destruct (proj1 (H a) (or_introl eq_refl)).
  - destruct (fold_min_spec l1 a) as [A1 A2], (fold_min_spec l2 b) as [B1 B2].
    destruct (fold_max_spec l1 (Z.max 0 a)) as [C1 C2], (fold_max_spec l2 (Z.max 0 b)) as [D1 D2].
    assert (E1 : fold_left Z.min l1 a = fold_left Z.min l2 b).
    { pose proof (A2 _ (proj2 (H _) B1)). pose proof (B2 _ (proj1 (H _) A1)). lia. }
    assert (G : forall m l l' c c', In m (Z.max 0 c :: l) -> (forall x, In x (c :: l) -> In x (c' :: l')) ->
               forall M, (forall x, In x (Z.max 0 c' :: l') -> x <= M) -> m <= M).
    { intros m l l' c c' Hm Hs M HM.
      assert (HM' : forall x, In x (c' :: l') -> x <= M).
      { intros x [<-|Hx]; [specialize (HM _ (or_introl eq_refl)); lia|apply HM; now right]. }
      destruct Hm as [<-|Hm].
      - specialize (HM _ (or_introl eq_refl)). specialize (HM' c (Hs _ (or_introl eq_refl))). lia.
      - apply HM', Hs. now right. }
    assert (E2 : fold_left Z.max l1 (Z.max 0 a) = fold_left Z.max l2 (Z.max 0 b)).
    { pose proof (G _ l1 l2 a b C1 (fun x => proj1 (H x)) _ D2).
      pose proof (G _ l2 l1 b a D1 (fun x => proj2 (H x)) _ C2). lia. }
    now rewrite E1, E2.
Qed.

Lemma in_scan0 d i f : In i (numbers (flat_map (child_of (clean_dir d)) (map fst (fs_files f)))) <->
  exists q n, fget q f <> None /\ child_of (clean_dir d) q = [n] /\ dataFileNumber n = Some i.
Proof.
  rewrite in_numbers. split.
  - intros (n & Hn & E). apply in_flat_map in Hn. destruct Hn as (q & Hq & Hc).
    apply in_mget in Hq. destruct Hq as (c & Hq). exists q, n. split; [unfold fget; congruence|]. split; [|exact E].
    unfold child_of in *. destruct (split_last q) as [[d' m]|]; [|contradiction]. destruct (beqb d' _); [|contradiction].
    destruct Hc as [<-|[]]. reflexivity.
  - intros (q & n & Hq & Hc & E). exists n. split; [|exact E]. apply in_flat_map. exists q.
    split; [|rewrite Hc; now left]. unfold fget in Hq. destruct (mget beqb q (fs_files f)) as [c|] eqn:G; [|contradiction].
    exact (mget_in _ _ _ G).
Qed.
Lemma scan0_agree d f g : agree d f g -> scan0 d f = scan0 d g.
Proof.
  intros H. unfold scan0. apply scan_ext. intros i. rewrite !in_scan0.
  split; intros (q & n & Hq & Hc & E); exists q, n; (split; [|now split]); (assert (own d q) by (unfold own; rewrite Hc; discriminate));
    [rewrite <- H|rewrite H]; auto.
Qed.
Lemma open0_agree d q e f g : own d q -> agree d f g ->
  snd (open0 size cap q e f) = snd (open0 size cap q e g) /\ agree d (fst (open0 size cap q e f)) (fst (open0 size cap q e g)).
Proof.
  intros Hq H. unfold open0. destruct e.
  - cbn [fst snd]. rewrite (H q Hq). auto.
  - destruct (createFile size cap) as [c r]. cbn [fst snd]. split; [reflexivity|]. now apply agree_put.
Qed.
Lemma fcont_agree d q f g : own d q -> agree d f g -> fcont q f = fcont q g.
Proof. intros Hq H. unfold fcont. now rewrite (H q Hq). Qed.

Lemma run0_agree {X} d (p : prog X) : local d p -> forall f g, agree d f g ->
  snd (run0 p f) = snd (run0 p g) /\ agree d (fst (run0 p f)) (fst (run0 p g)).
Proof.
  induction p; cbn [local run0]; try contradiction; intros HL f g HA.
  - auto.
  - destruct HL as [-> HL]. rewrite (scan0_agree d f g HA). auto.
  - destruct HL as [Hq HL]. destruct (open0_agree d q e f g Hq HA) as [E A].
    destruct (open0 size cap q e f), (open0 size cap q e g). cbn [fst snd] in *. subst. auto.
  - destruct HL as [Hq HL]. destruct (open0_agree d q e f g Hq HA) as [E A].
    destruct (open0 size cap q e f), (open0 size cap q e g). cbn [fst snd] in *. subst. auto.
  - destruct HL as [Hq HL]. rewrite (fcont_agree d q f g Hq HA). auto.
  - destruct HL as [Hq HL]. apply IHp; auto. now apply agree_put.
  - destruct HL as [Hq HL]. auto.
  - destruct HL as [Hq HL]. auto.
  - destruct HL as [Hq HL]. apply IHp; auto. now apply agree_del.
Qed.

Lemma safe_agree {X} d nc (p : prog X) : local d p -> forall hs ev f g, agree d f g ->
  safe nc hs ev p f -> safe nc hs ev p g.
Proof.
  induction p; cbn [local safe]; try contradiction; intros HL hs ev f g HA HS.
  - auto.
  - destruct HL as [-> HL]. rewrite <- (scan0_agree d f g HA). eauto.
  - destruct HL as [Hq HL]. destruct (open0_agree d q e f g Hq HA) as [E A].
    destruct (open0 size cap q e f), (open0 size cap q e g). cbn [fst snd] in *. subst. rewrite <- (HA q Hq).
    destruct HS as (H1 & H2 & H3). eauto.
  - destruct HL as [Hq HL]. destruct (open0_agree d q e f g Hq HA) as [E A].
    destruct (open0 size cap q e f), (open0 size cap q e g). cbn [fst snd] in *. subst. rewrite <- (HA q Hq).
    destruct HS as (H1 & H2 & H3). eauto.
  - destruct HL as [Hq HL]. rewrite <- (fcont_agree d q f g Hq HA). destruct HS. eauto.
  - destruct HL as [Hq HL]. rewrite <- (fcont_agree d q f g Hq HA). destruct HS as (H1 & H2 & H3).
    split; [auto|]. split; [auto|]. eapply IHp; [auto| |exact H3]. now apply agree_put.
  - destruct HL as [Hq HL]. destruct HS. eauto.
  - destruct HL as [Hq HL]. eauto.
  - destruct HL as [Hq HL]. destruct HS as (H1 & H2 & H3). split; [auto|]. split; [auto|].
    eapply IHp; [auto| |exact H3]. now apply agree_del.
Qed.

(** a local program leaves the rest alone *)
Lemma run0_frame {X} d (p : prog X) : local d p -> forall f,
  fs_dirs (fst (run0 p f)) = fs_dirs f /\ forall q, ~ own d q -> fget q (fst (run0 p f)) = fget q f.
Proof.
  assert (Hneq : forall q x, own d q -> ~ own d x -> beqb q x = false).
  { intros q x H1 H2. apply beqb_neq. intros ->. contradiction. }
  assert (Hopen : forall q e f, own d q -> fs_dirs (fst (open0 size cap q e f)) = fs_dirs f /\
     forall x, ~ own d x -> fget x (fst (open0 size cap q e f)) = fget x f).
  { intros q e f Hq. unfold open0. destruct e; [cbn; auto|]. destruct (createFile size cap) as [c r]. cbn [fst].
    split; [reflexivity|]. intros x Hx. rewrite fget_put, (Hneq q x); auto. }
  induction p; cbn [local run0]; try contradiction; intros HL f.
  - auto.
  - destruct HL as [_ HL]. auto.
  - destruct HL as [Hq HL]. destruct (Hopen q e f Hq) as [H1 H2]. destruct (open0 size cap q e f) as [f' r]. cbn [fst] in *.
    destruct (H r (HL r) f') as [H3 H4]. split; [congruence|]. intros x Hx. rewrite H4, H2; auto.
  - destruct HL as [Hq HL]. destruct (Hopen q e f Hq) as [H1 H2]. destruct (open0 size cap q e f) as [f' r]. cbn [fst] in *.
    destruct (H r (HL r) f') as [H3 H4]. split; [congruence|]. intros x Hx. rewrite H4, H2; auto.
  - destruct HL as [Hq HL]. auto.
  - destruct HL as [Hq HL]. destruct (IHp HL (fput q c f)) as [H3 H4]. split; [exact H3|].
    intros x Hx. rewrite H4, fget_put, (Hneq q x); auto.
  - destruct HL as [Hq HL]. auto.
  - destruct HL as [Hq HL]. auto.
  - destruct HL as [Hq HL]. destruct (IHp HL (fdel q f)) as [H3 H4]. split; [exact H3|].
    intros x Hx. rewrite H4, fget_del, (Hneq q x); auto.
Qed.
End Run.
