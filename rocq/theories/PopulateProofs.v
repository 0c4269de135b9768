From Coq Require Import ZArith List Bool Lia.
From Verif Require Import Base Maps Cache CacheProofs Convert ConvertSpec ConvertProofs Sset SsetProofs Populate.
Import ListNotations.
Open Scope Z_scope.

(** ** directory entries *)
Lemma le_length k : forall n, length (le k n) = k.
Proof. induction k as [|k IH]; intros n; cbn; [reflexivity|]. now rewrite IH. Qed.
Lemma unle_le k : forall n, 0 <= n < 256 ^ Z.of_nat k -> unle (le k n) = n.
Proof.
  induction k as [|k IH]; intros n H; cbn [le unle].
  - cbn in H. lia.
  - rewrite Nat2Z.inj_succ, Z.pow_succ_r in H by lia.
    rewrite IH.
    + pose proof (Z.div_mod n 256). lia.
    + split; [apply Z.div_pos; lia|]. apply Z.div_lt_upper_bound; lia.
Qed.
Lemma sub_app_at (a b c : list Z) off n : off = len a -> n = len b -> sub off n (a ++ b ++ c) = b.
Proof.
  intros -> ->. unfold sub, len. rewrite !Nat2Z.id. rewrite skipn_app, skipn_all, Nat.sub_diag. cbn [skipn app].
  rewrite firstn_app, firstn_all, Nat.sub_diag. cbn. now rewrite app_nil_r.
Qed.
Lemma readInt_at (a b c : list Z) off n : off = len a -> n = len b -> readInt (a ++ b ++ c) off n = Some (unle b).
Proof.
  intros Ho Hn. unfold readInt. rewrite (sub_app_at a b c) by assumption.
  destruct (Z.ltb_spec (len (a ++ b ++ c)) (off + n)); [|reflexivity].
  rewrite !len_app in H. pose proof (len_nonneg c). lia.
Qed.

(** struct linux_dirent64 *)
Record dent := Dent { d_ino : Z; d_off : Z; d_type : Z; d_name : list Z; d_junk : list Z }.
Definition d_reclen (e : dent) : Z := 20 + len (d_name e) + len (d_junk e).
Definition d_enc (e : dent) : list Z :=
  le 8 (d_ino e) ++ le 8 (d_off e) ++ le 2 (d_reclen e) ++ [d_type e] ++ d_name e ++ 0 :: d_junk e.
Definition d_ok (e : dent) : Prop :=
  0 <= d_ino e < 2 ^ 64 /\ d_reclen e < 65536 /\ ~ In 0 (d_name e).
Definition d_keep (e : dent) : bool :=
  negb (d_ino e =? 0) && (negb (beqb (d_name e) [46]) && negb (beqb (d_name e) [46; 46])).

Lemma len_enc e : len (d_enc e) = d_reclen e.
Proof.
  unfold d_enc, d_reclen. rewrite !len_app, !len_cons. unfold len. rewrite !le_length. cbn [length]. lia.
Qed.
Lemma untilZero_spec l r : ~ In 0 l -> untilZero (l ++ 0 :: r) = l.
Proof.
  induction l as [|c l IH]; intros H; cbn; [reflexivity|].
  destruct (Z.eqb_spec c 0) as [->|]; [exfalso; apply H; now left|]. rewrite IH; [reflexivity|].
  intros X. apply H. now right.
Qed.

Lemma nextDirent_enc e rest : d_ok e ->
  exists name, nextDirent (d_enc e ++ rest) = Ok (rest, name, d_keep e) /\ (d_keep e = true -> name = d_name e).
Proof.
  intros (Hi & Hr & Hz).
  assert (Hn : 0 <= d_reclen e) by (unfold d_reclen; pose proof (len_nonneg (d_name e)); pose proof (len_nonneg (d_junk e)); lia).
  assert (Rl : forall r, direntReadReclen (d_enc e ++ r) = Some (d_reclen e)).
  { intros r. unfold direntReadReclen, d_enc. rewrite <- !app_assoc. rewrite (app_assoc (le 8 (d_ino e))).
    rewrite readInt_at.
    - f_equal. apply unle_le. change (256 ^ Z.of_nat 2) with 65536. lia.
    - rewrite len_app. unfold len. rewrite !le_length. reflexivity.
    - unfold len. rewrite !le_length. reflexivity. }
  unfold nextDirent. rewrite Rl. rewrite len_app, len_enc. pose proof (len_nonneg rest) as Hl.
  destruct (Z.ltb_spec (d_reclen e + len rest) (d_reclen e)); [lia|]. cbn zeta.
  assert (E1 : sub 0 (d_reclen e) (d_enc e ++ rest) = d_enc e).
  { rewrite <- len_enc. apply (sub_app_at [] (d_enc e) rest); reflexivity. }
  assert (E2 : skipn (Z.to_nat (d_reclen e)) (d_enc e ++ rest) = rest).
  { rewrite <- len_enc. unfold len. rewrite Nat2Z.id, skipn_app, skipn_all, Nat.sub_diag. reflexivity. }
  rewrite E1, E2.
  assert (E3 : direntReadIno (d_enc e) = Some (d_ino e)).
  { unfold direntReadIno, d_enc. 
    match goal with |- readInt ?b _ _ = _ => change b with ([] ++ b) end. rewrite readInt_at.
    - f_equal. apply unle_le. change (256 ^ Z.of_nat 8) with (2 ^ 64). exact Hi.
    - reflexivity.
    - unfold len. rewrite le_length. reflexivity. }
  rewrite E3. unfold d_keep. destruct (Z.eqb_spec (d_ino e) 0) as [H0|H0].
  { exists []. split; [reflexivity|]. cbn. discriminate. }
  unfold direntReadNamlen. specialize (Rl []). rewrite app_nil_r in Rl. rewrite Rl.
  assert (Hrl : 20 <= d_reclen e) by (unfold d_reclen; pose proof (len_nonneg (d_name e)); pose proof (len_nonneg (d_junk e)); lia).
  assert (E4 : u64 (nameOffset + u64 (d_reclen e - nameOffset)) = d_reclen e).
  { unfold u64, nameOffset. rewrite (Z.mod_small (d_reclen e - 19)) by lia. rewrite Z.mod_small; lia. }
  rewrite E4. rewrite len_enc, Z.ltb_irrefl. destruct (Z.ltb_spec (d_reclen e) nameOffset) as [Hx|_]; [unfold nameOffset in Hx; lia|].
  eexists. split; [|].
  - cbn [negb andb]. repeat f_equal; try reflexivity.
    all: unfold d_enc; rewrite (app_assoc (le 8 (d_ino e))), (app_assoc (_ ++ _) (le 2 _)), (app_assoc (_ ++ _) [_]).
    all: rewrite <- (app_nil_r (d_name e ++ 0 :: d_junk e)).
    all: rewrite sub_app_at; [apply untilZero_spec; exact Hz|rewrite !len_app; unfold len; rewrite !le_length; reflexivity|].
    all: rewrite len_app, len_cons; unfold d_reclen, nameOffset; lia.
  - intros _. unfold d_enc; rewrite (app_assoc (le 8 (d_ino e))), (app_assoc (_ ++ _) (le 2 _)), (app_assoc (_ ++ _) [_]).
    rewrite <- (app_nil_r (d_name e ++ 0 :: d_junk e)).
    rewrite sub_app_at; [apply untilZero_spec; exact Hz|rewrite !len_app; unfold len; rewrite !le_length; reflexivity|].
    rewrite len_app, len_cons; unfold d_reclen, nameOffset; lia.
Qed.

Lemma scan_enc es : Forall d_ok es -> forall fuel, (length (flat_map d_enc es) < fuel)%nat ->
  scan fuel (flat_map d_enc es) = Ok (map d_name (filter d_keep es)).
Proof.
  induction 1 as [|e es He _ IH]; intros fuel Hf; (destruct fuel as [|fuel]; [lia|]).
  - reflexivity.
  - cbn [flat_map] in *. cbn [scan]. rewrite app_length in Hf. pose proof (len_enc e) as Hl. unfold len in Hl.
    assert (20 <= d_reclen e) by (unfold d_reclen; pose proof (len_nonneg (d_name e)); pose proof (len_nonneg (d_junk e)); lia).
    destruct (Z.eqb_spec (len (d_enc e ++ flat_map d_enc es)) 0) as [E|_].
    { rewrite len_app in E. pose proof (len_nonneg (flat_map d_enc es)). rewrite len_enc in E. lia. }
    destruct (nextDirent_enc e (flat_map d_enc es) He) as (name & E & K). rewrite E. cbn [bind fst snd].
    rewrite IH by lia. cbn [bind filter]. destruct (d_keep e); [|reflexivity]. cbn [map]. now rewrite K.
Qed.

(** any buffer: a round makes progress or the record length is 0 or 18 *)
Lemma nextDirent_progress buf : buf <> [] -> is_bytes buf ->
  (exists buf' name ok, nextDirent buf = Ok (buf', name, ok) /\ (length buf' < length buf)%nat) \/
  (direntReadReclen buf = Some 0 /\ nextDirent buf = Ok (buf, [], false)) \/
  (direntReadReclen buf = Some 18 /\ nextDirent buf = Panic).
Proof.
  intros Hne Hb. unfold nextDirent.
  assert (Hpos : (0 < length buf)%nat) by (destruct buf; [contradiction|cbn; lia]).
  destruct (direntReadReclen buf) as [r|] eqn:Er.
  2:{ left. exists [], [], false. split; [reflexivity|]. cbn. lia. }
  assert (Hr : 0 <= r < 65536).
  { unfold direntReadReclen, readInt in Er. destruct (len buf <? 16 + 2) eqn:E; [discriminate|]. apply Z.ltb_ge in E.
    assert (Hs : exists a b, sub 16 2 buf = [a; b] /\ is_byte a /\ is_byte b).
    { unfold sub. change (Z.to_nat 2) with 2%nat. change (Z.to_nat 16) with 16%nat.
      assert (Hl : (18 <= length buf)%nat) by (unfold len in E; lia).
      assert (Hk : is_bytes (skipn 16 buf)).
      { unfold is_bytes in *. rewrite Forall_forall in *. intros x Hx. apply Hb.
        rewrite <- (firstn_skipn 16 buf). apply in_app_iff. now right. }
      pose proof (skipn_length 16 buf) as Hsl. destruct (skipn 16 buf) as [|a [|b l]]; cbn [length] in Hsl; try lia.
      exists a, b. split; [reflexivity|]. inversion Hk; subst. inversion H2; subst. auto. }
    destruct Hs as (a & b & Es & Ha & Hb'). rewrite Es in Er. apply (f_equal (fun o => match o with Some v => v | None => r end)) in Er. rewrite <- Er. unfold unle. unfold is_byte in *. lia. }
  destruct (Z.ltb_spec (len buf) r) as [Hlt|Hge].
  { left. exists [], [], false. split; [reflexivity|]. cbn. lia. }
  cbn zeta.
  assert (Hsub : len (sub 0 r buf) = r).
  { unfold sub, len in *. cbn [skipn Z.to_nat]. rewrite firstn_length. lia. }
  destruct (Z.eq_dec r 0) as [->|Hr0].
  { right. left. split; [reflexivity|]. unfold direntReadIno, readInt. rewrite Hsub. reflexivity. }
  assert (Hp : (length (skipn (Z.to_nat r) buf) < length buf)%nat) by (rewrite skipn_length; unfold len in *; lia).
  destruct (direntReadIno (sub 0 r buf)) as [ino|]; [|left; do 3 eexists; eauto].
  destruct (ino =? 0); [left; do 3 eexists; eauto|].
  destruct (direntReadNamlen (sub 0 r buf)) as [nl|] eqn:En; [|left; do 3 eexists; eauto].
  unfold direntReadNamlen in En. destruct (direntReadReclen (sub 0 r buf)) as [r'|] eqn:Er'; [|discriminate].
  injection En as <-.
  assert (r' = r /\ 18 <= r) as [-> H18].
  { unfold direntReadReclen, readInt in *. rewrite Hsub in Er'.
    destruct (Z.ltb_spec r (16 + 2)); [discriminate|].
    destruct (Z.ltb_spec (len buf) (16 + 2)); [discriminate|]. split; [|lia].
    assert (Es : sub 16 2 (sub 0 r buf) = sub 16 2 buf).
    { unfold sub. cbn [skipn Z.to_nat]. rewrite skipn_firstn_comm, firstn_firstn. f_equal. lia. }
    rewrite Es in Er'. congruence. }
  assert (E4 : u64 (nameOffset + u64 (r - nameOffset)) = r).
  { unfold u64, nameOffset. rewrite Z.add_mod_idemp_r by lia. replace (19 + (r - 19)) with r by lia. apply Z.mod_small. lia. }
  rewrite E4, Hsub, Z.ltb_irrefl.
  destruct (Z.ltb_spec r nameOffset) as [Hx|Hx].
  - right. right. unfold nameOffset in Hx. assert (r = 18) by lia. subst r. split; reflexivity.
  - left. do 3 eexists. eauto.
Qed.

(** ** the walk *)
Fixpoint node_ind2 (P : node -> Prop) (HF : P NFile)
    (HD : forall es, Forall (fun e => P (snd e)) es -> P (NDir es)) (t : node) : P t :=
  match t with
  | NFile => HF
  | NDir es =>
      HD es ((fix all (es : list (list Z * node)) : Forall (fun e => P (snd e)) es :=
                match es with
                | [] => Forall_nil _
                | e :: es => Forall_cons e (node_ind2 P HF HD (snd e)) (all es)
                end) es)
  end.

Lemma populate_entries es d out : populate (NDir es) d out = popEntries es d false out.
Proof.
  cbn [populate]. generalize false. revert out. induction es as [|[name child] es IH]; intros out added; [reflexivity|].
  cbn [popEntries]. destruct (hasSuffix name s_data).
  - destruct added; [apply IH|]. destruct (dirToMetric d); cbn; [apply IH|reflexivity..].
  - destruct (populate child (joinPath d name) out); cbn; [apply IH|reflexivity..].
Qed.

Lemma joinPath_inj d d' a b : ~ In 47 a -> ~ In 47 b -> joinPath d a = joinPath d' b -> d = d' /\ a = b.
Proof.
  intros Ha Hb. unfold joinPath.
  assert (Z : forall l : list Z, (0 <? len l) = false -> l = []).
  { intros l H. apply Z.ltb_ge in H. apply len_0_nil. pose proof (len_nonneg l). lia. }
  destruct (0 <? len d) eqn:E1, (0 <? len d') eqn:E2; intros E.
  - cbn in E. now apply app_inj_tail_sep.
  - exfalso. apply Hb. rewrite <- E. apply in_app_iff. right. now left.
  - exfalso. apply Ha. rewrite E. apply in_app_iff. right. now left.
  - rewrite (Z d E1), (Z d' E2). auto.
Qed.
Lemma metricToPath_join m n : metricToPath [] m n = joinPath (metricToDir [] m) (itoa n ++ s_data).
Proof.
  unfold metricToPath, joinPath. destruct (Z.ltb_spec 0 (len (metricToDir [] m))) as [H|H].
  - now rewrite <- app_assoc.
  - rewrite (len_0_nil (metricToDir [] m)); [reflexivity|]. pose proof (len_nonneg (metricToDir [] m)). lia.
Qed.
Lemma hasSuffix_app a suf : hasSuffix (a ++ suf) suf = true.
Proof.
  unfold hasSuffix. rewrite app_length. replace (length a + length suf - length suf)%nat with (length a) by lia.
  rewrite skipn_app, skipn_all, Nat.sub_diag. cbn. rewrite (proj2 (beqb_eq suf suf) eq_refl), andb_true_r. apply Nat.leb_le. lia.
Qed.
Lemma hasSuffix_in l s : hasSuffix l s = true -> forall c, In c s -> In c l.
Proof.
  unfold hasSuffix. rewrite andb_true_iff. intros [_ H] c Hc. apply beqb_eq in H. rewrite <- H in Hc.
  rewrite <- (firstn_skipn (length l - length s) l). apply in_app_iff. now right.
Qed.

Definition dbPaths (l : list (list Z)) : Prop :=
  forall p, In p l -> exists m n, is_i64 n /\ p = metricToPath [] m n.

Lemma pop_spec t : forall d out, okTree t -> swf out -> dbPaths (files t d) -> t <> NFile ->
  exists out', populate t d out = Ok out' /\ swf out' /\
    forall x, In x (s_order out') <-> In x (s_order out) \/ exists n, is_i64 n /\ In (metricToPath [] x n) (files t d).
Proof.
  induction t as [|es IH] using node_ind2; intros d out Hok Hwf Hdb Hne; [contradiction|].
  rewrite populate_entries. cbn [files] in *. clear Hne.
  assert (G : forall added out, swf out -> (added = true -> exists m, metricToDir [] m = d /\ In m (s_order out)) ->
    exists out', popEntries es d added out = Ok out' /\ swf out' /\
    forall x, In x (s_order out') <-> In x (s_order out) \/
      exists n, is_i64 n /\ In (metricToPath [] x n) (flat_map (fun e => files (snd e) (joinPath d (fst e))) es)).
  2:{ apply G; [exact Hwf|discriminate]. }
  clear out Hwf.
  induction es as [|[name child] es IHe]; intros added out Hwf Hadd; cbn [popEntries flat_map].
  { exists out. split; [reflexivity|]. split; [exact Hwf|]. intros x. cbn. split; [auto|]. intros [H|(n & _ & [])]. exact H. }
  cbn [okTree] in Hok. destruct Hok as (N1 & N2 & N3 & N4 & N5). fold okTree in *.
  inversion IH as [|? ? IH1 IH2]; subst. cbn [fst snd] in *.
  assert (Hdb2 : dbPaths (flat_map (fun e => files (snd e) (joinPath d (fst e))) es)).
  { intros p Hp. apply Hdb. cbn [flat_map]. apply in_app_iff. now right. }
  assert (Hdb1 : dbPaths (files child (joinPath d name))).
  { intros p Hp. apply Hdb. cbn [flat_map]. apply in_app_iff. now left. }
  specialize (IHe IH2 N5 Hdb2).
  destruct (hasSuffix name s_data) eqn:Es.
  - destruct child as [|ces].
    2:{ exfalso. apply N3. apply (hasSuffix_in _ _ Es). now left. }
    cbn [files] in *. destruct (Hdb1 (joinPath d name)) as (m & n & Hn & Em); [now left|].
    pose proof Em as Em'. rewrite metricToPath_join in Em. apply joinPath_inj in Em; [|exact N2|now apply filename_no_slash].
    destruct Em as [Ed En].
    assert (Hhere : forall x, (exists n, is_i64 n /\ In (metricToPath [] x n) [joinPath d name]) <-> x = m).
    { intros x. split.
      - intros (n' & Hn' & [E|[]]). rewrite Em' in E. apply metricToPath_inj_ in E; [|assumption|assumption]. now symmetry.
      - intros ->. exists n. split; [exact Hn|]. left. exact Em'. }
    assert (Hsplit : forall x, (exists n, is_i64 n /\ In (metricToPath [] x n) ([joinPath d name] ++
         flat_map (fun e => files (snd e) (joinPath d (fst e))) es)) <->
         x = m \/ exists n, is_i64 n /\ In (metricToPath [] x n) (flat_map (fun e => files (snd e) (joinPath d (fst e))) es)).
    { intros x. rewrite <- Hhere. split.
      - intros (k & Hk & X). apply in_app_iff in X. destruct X; eauto.
      - intros [(k & Hk & X)|(k & Hk & X)]; exists k; (split; [exact Hk|]); apply in_app_iff; auto. }
    destruct added.
    + destruct (Hadd eq_refl) as (m' & Em2 & Hm'). rewrite <- Em2 in Ed. apply metricToDir_inj_ in Ed. subst m'.
      destruct (IHe true out Hwf Hadd) as (out' & E & W & I). exists out'. split; [exact E|]. split; [exact W|].
      intros x. rewrite I, Hsplit. split; [intuition|]. intros [X|[->|X]]; auto.
    + rewrite Ed, roundtrip_. cbn [bind]. destruct (add_wf m out Hwf) as [W1 W2].
      destruct (IHe true (s_add m out) W1) as (out' & E & W & I).
      { intros _. exists m. split; [now symmetry|]. apply W2. now left. }
      rewrite Ed in E. exists out'. split; [exact E|]. split; [exact W|].
      rewrite Ed in Hsplit. intros x. rewrite I, Hsplit, W2. rewrite Ed. tauto.
  - destruct child as [|ces].
    { exfalso. destruct (Hdb1 (joinPath d name)) as (m & n & Hn & Em); [now left|].
      rewrite metricToPath_join in Em. apply joinPath_inj in Em; [|exact N2|now apply filename_no_slash].
      destruct Em as [_ ->]. now rewrite hasSuffix_app in Es. }
    destruct (IH1 (joinPath d name) out N4 Hwf Hdb1 ltac:(discriminate)) as (o1 & E1 & W1 & I1).
    rewrite E1. cbn [bind].
    destruct (IHe added o1 W1) as (o2 & E2 & W2 & I2).
    { intros Ha. destruct (Hadd Ha) as (m & A & B). exists m. split; [exact A|]. apply I1. now left. }
    exists o2. split; [exact E2|]. split; [exact W2|]. intros x. rewrite I2, I1. split.
    + intros [[X|(n & Hn & X)]|(n & Hn & X)]; auto; right; exists n; (split; [exact Hn|]); apply in_app_iff; auto.
    + intros [X|(n & Hn & X)]; auto. apply in_app_iff in X. destruct X as [X|X]; [left; right|right]; eauto.
Qed.

(** ** trees made by the database *)
(** as okTree, and regular files have a dot in their name *)
Definition okEntry (ok : node -> Prop) (e : list Z * node) : Prop :=
  fst e <> [] /\ ~ In 47 (fst e) /\
  match snd e with NFile => In 46 (fst e) | NDir _ => ~ In 46 (fst e) end /\ ok (snd e).
Fixpoint okTree2 (t : node) : Prop :=
  match t with
  | NFile => True
  | NDir es => (fix all (es : list (list Z * node)) : Prop :=
         match es with
         | [] => True
         | e :: es => okEntry okTree2 e /\ all es
         end) es
  end.
Lemma okTree2_dir es : okTree2 (NDir es) <-> Forall (okEntry okTree2) es.
Proof.
  induction es as [|e es IH]; [cbn; split; auto|]. cbn [okTree2]. fold okTree2. rewrite Forall_cons_iff, <- IH. cbn [okTree2]. tauto.
Qed.
Lemma okTree2_ok t : okTree2 t -> okTree t.
Proof.
  induction t as [|es IH] using node_ind2; [auto|]. rewrite okTree2_dir. cbn [okTree].
  induction es as [|[name child] es IHe]; intros H; [exact I|].
  inversion H as [|? ? H1 H2]; subst. inversion IH as [|? ? I1 I2]; subst. destruct H1 as (A & B & C & D).
  cbn [fst snd] in *. split; [exact A|]. split; [exact B|]. split; [destruct child; auto|]. split; [exact (I1 D)|]. exact (IHe I2 H2).
Qed.

Definition jp (d : list Z) (cs : list (list Z)) : list Z := fold_left joinPath cs d.

Definition notFile (t : option node) : Prop := t <> Some NFile.
Definition okOpt (t : option node) : Prop := match t with Some t => okTree2 t | None => True end.
Definition filesOpt (t : option node) (d : list Z) := match t with Some t => files t d | None => [] end.

Lemma mk_files f : f <> [] -> ~ In 47 f -> In 46 f ->
  forall cs, Forall safe_component cs ->
  forall t d, okOpt t -> notFile t ->
  let t' := mkFile (cs ++ [f]) t in
  okTree2 t' /\ t' <> NFile /\
  forall p, In p (files t' d) <-> In p (filesOpt t d) \/ p = jp d (cs ++ [f]).
Proof.
  intros F1 F2 F3. induction 1 as [|c cs Hc _ IH]; intros t d Hok Hnf; cbn zeta.
  - (* the file itself *)
    assert (U : forall es d, Forall (okEntry okTree2) es ->
      Forall (okEntry okTree2) (update f (mkFile []) es) /\
      forall p, In p (files (NDir (update f (mkFile []) es)) d) <-> In p (files (NDir es) d) \/ p = joinPath d f).
    { clear d Hok. intros es d.
      induction es as [|[n c] es IHe]; intros H; cbn [update].
      - split; [constructor; [|constructor]; cbn; unfold okEntry; cbn; auto|]. intros p. cbn. intuition.
      - inversion H as [|? ? H1 H2]; subst. destruct (beqb n f) eqn:E.
        + apply beqb_eq in E. subst n. destruct H1 as (A & B & C & D). cbn [fst snd] in *.
          destruct c as [|ces]; [|contradiction]. cbn [mkFile]. split.
          * constructor; [|exact H2]. unfold okEntry. cbn. auto.
          * intros p. cbn. intuition.
        + destruct (IHe H2) as [A B]. split; [constructor; assumption|].
          intros p. cbn [files flat_map fst snd] in *. rewrite !in_app_iff. rewrite B. tauto. }
    cbn [app mkFile]. destruct t as [[|es]|].
    + exfalso. now apply Hnf.
    + cbn in Hok. change (okTree2 (NDir es)) in Hok. rewrite okTree2_dir in Hok.
      destruct (U es d Hok) as [A B]. split; [apply okTree2_dir; exact A|]. split; [discriminate|]. exact B.
    + destruct (U [] d ltac:(constructor)) as [A B]. split; [apply okTree2_dir; exact A|]. split; [discriminate|].
      intros p. rewrite B. cbn. tauto.
  - cbn [app mkFile].
    assert (U : forall es d, Forall (okEntry okTree2) es ->
      Forall (okEntry okTree2) (update c (mkFile (cs ++ [f])) es) /\
      forall p, In p (files (NDir (update c (mkFile (cs ++ [f])) es)) d) <->
                In p (files (NDir es) d) \/ p = jp (joinPath d c) (cs ++ [f])).
    { intros es d0. destruct Hc as (C1 & C2 & C3).
      induction es as [|[n ch] es IHe]; intros H; cbn [update].
      - destruct (IH None (joinPath d0 c) I ltac:(discriminate)) as (A & N & B). split.
        + constructor; [|constructor]. unfold okEntry. cbn [fst snd]. split; [exact C1|]. split; [exact C3|].
          split; [|exact A]. destruct (mkFile (cs ++ [f]) None); [contradiction|exact C2].
        + intros p. cbn [files flat_map fst snd]. rewrite app_nil_r, B. cbn. tauto.
      - inversion H as [|? ? H1 H2]; subst. destruct (beqb n c) eqn:E.
        + apply beqb_eq in E. subst n. destruct H1 as (A & B & C & D). cbn [fst snd] in *.
          destruct (IH (Some ch) (joinPath d0 c) D) as (A' & N & B').
          { intros [= ->]. contradiction. }
          split.
          * constructor; [|exact H2]. unfold okEntry. cbn [fst snd]. split; [exact A|]. split; [exact B|].
            split; [|exact A']. destruct (mkFile (cs ++ [f]) (Some ch)); [contradiction|exact C2].
          * intros p. cbn [files flat_map fst snd]. rewrite !in_app_iff, B'. cbn [filesOpt]. tauto.
        + destruct (IHe H2) as [A B]. split; [constructor; assumption|].
          intros p. cbn [files flat_map fst snd] in *. rewrite !in_app_iff. rewrite B. tauto. }
    destruct t as [[|es]|].
    + exfalso. now apply Hnf.
    + cbn in Hok. change (okTree2 (NDir es)) in Hok. rewrite okTree2_dir in Hok.
      destruct (U es d Hok) as [A B]. split; [apply okTree2_dir; exact A|]. split; [discriminate|]. exact B.
    + destruct (U [] d ltac:(constructor)) as [A B]. split; [apply okTree2_dir; exact A|]. split; [discriminate|].
      intros p. rewrite B. cbn. tauto.
Qed.

(** the components of a data file's path *)
Lemma components_render2 comps cur : Forall (fun c => ~ In 47 c) comps -> ~ In 47 cur ->
  components (render comps cur) = comps ++ [cur].
Proof.
  intros Hs Hc. induction Hs as [|c comps Hx _ IH]; unfold render in *; cbn [map concat app].
  - now apply components_clean.
  - rewrite <- !app_assoc. cbn [app]. change c_slash with 47 in *.
    rewrite components_app by exact Hx. rewrite IH. reflexivity.
Qed.
Lemma jp_render cs last : Forall (fun c => c <> []) cs -> last <> [] ->
  forall d, jp d (cs ++ [last]) = joinPath d (render cs last).
Proof.
  intros H Hl. induction H as [|c cs Hc H IH]; intros d; cbn [app jp fold_left]; [reflexivity|].
  change (fold_left joinPath (cs ++ [last]) (joinPath d c)) with (jp (joinPath d c) (cs ++ [last])). rewrite IH.
  unfold render. cbn [map concat]. unfold joinPath at 1 3.
  assert (P : forall a : list Z, a <> [] -> (0 <? len a) = true).
  { intros a Ha. apply Z.ltb_lt. pose proof (len_nonneg a). destruct (Z.eq_dec (len a) 0) as [E|]; [|lia].
    apply len_0_nil in E. contradiction. }
  assert (Hj : joinPath d c <> []).
  { unfold joinPath. destruct (0 <? len d); [|exact Hc]. intros X. apply app_eq_nil in X. destruct X. discriminate. }
  rewrite (P _ Hj). unfold joinPath. destruct (0 <? len d); rewrite <- ?app_assoc; reflexivity.
Qed.
Lemma render_nil_r comps cur : render (comps ++ [cur]) [] = render comps cur ++ [c_slash].
Proof. apply render_snoc. Qed.

Lemma path_comps m n : is_i64 n -> exists cs f,
  components (metricToPath [] m n) = cs ++ [f] /\ Forall safe_component cs /\
  f <> [] /\ ~ In 47 f /\ In 46 f /\ jp [] (cs ++ [f]) = metricToPath [] m n.
Proof.
  intros Hn. pose proof (filename_no_slash n Hn) as F2.
  assert (F1 : itoa n ++ s_data <> []) by (intros X; apply app_eq_nil in X; destruct X; discriminate).
  assert (F3 : In 46 (itoa n ++ s_data)) by (apply in_app_iff; right; now left).
  rewrite metricToPath_join. destruct m as [|c m].
  - exists [], (itoa n ++ s_data). rewrite metricToDir_nil. cbn [joinPath].
    change (joinPath [] (itoa n ++ s_data)) with (itoa n ++ s_data).
    split; [now apply components_clean|]. split; [constructor|]. auto.
  - destruct (metricToDir_render [] (c :: m)) as (comps & cur & E & Hs & Hc & H1 & _). rewrite E. cbn [app].
    assert (Hcur : safe_component cur) by (apply safe_of_clean; [apply H1; discriminate|exact Hc]).
    assert (Hall : Forall safe_component (comps ++ [cur])) by (apply Forall_app; split; [exact Hs|constructor; [exact Hcur|constructor]]).
    assert (Ej : joinPath (render comps cur) (itoa n ++ s_data) = render (comps ++ [cur]) (itoa n ++ s_data)).
    { unfold joinPath. assert (Hl : 0 < len (render comps cur)).
      { unfold render. rewrite len_app. pose proof (len_nonneg (concat (map (fun c0 : list Z => c0 ++ [c_slash]) comps))).
        destruct Hcur as (X & _). destruct cur as [|y cur]; [contradiction|]. rewrite len_cons. pose proof (len_nonneg cur). lia. }
      apply Z.ltb_lt in Hl. rewrite Hl. unfold render. rewrite map_app, concat_app. cbn [map concat].
      rewrite app_nil_r, <- !app_assoc. reflexivity. }
    rewrite Ej. exists (comps ++ [cur]), (itoa n ++ s_data).
    split; [apply components_render2; [|exact F2]; eapply Forall_impl; [|exact Hall]; intros a (_ & _ & X); exact X|].
    split; [exact Hall|]. split; [exact F1|]. split; [exact F2|]. split; [exact F3|].
    rewrite jp_render; [reflexivity| |exact F1]. eapply Forall_impl; [|exact Hall]. intros a (X & _). exact X.
Qed.

(** the tree after the data files [l] (metric, number) have been created *)
Definition dbTree (l : list (list Z * Z)) : node :=
  fold_left (fun t e => mkFile (components (metricToPath [] (fst e) (snd e))) (Some t)) l (NDir []).

Lemma dbTree_spec l : Forall (fun e => is_i64 (snd e)) l ->
  okTree2 (dbTree l) /\ dbTree l <> NFile /\
  forall p, In p (files (dbTree l) []) <-> exists e, In e l /\ p = metricToPath [] (fst e) (snd e).
Proof.
  unfold dbTree.
  assert (G : forall l t, Forall (fun e => is_i64 (snd e)) l -> okTree2 t -> t <> NFile ->
    let t' := fold_left (fun t e => mkFile (components (metricToPath [] (fst e) (snd e))) (Some t)) l t in
    okTree2 t' /\ t' <> NFile /\
    forall p, In p (files t' []) <-> In p (files t []) \/ exists e, In e l /\ p = metricToPath [] (fst e) (snd e)).
  { clear l. induction l as [|e l IH]; intros t Hl Hok Hnf; cbn [fold_left].
    - cbn zeta. split; [exact Hok|]. split; [exact Hnf|]. intros p. split; [auto|]. intros [H|(e & [] & _)]. exact H.
    - inversion Hl as [|? ? H1 H2]; subst.
      destruct (path_comps (fst e) (snd e) H1) as (cs & f & Ec & Hs & F1 & F2 & F3 & Ej).
      rewrite Ec. destruct (mk_files f F1 F2 F3 cs Hs (Some t) [] Hok) as (A & B & C); [intros [= ->]; contradiction|].
      destruct (IH (mkFile (cs ++ [f]) (Some t)) H2 A B) as (A' & B' & C'). cbn zeta.
      split; [exact A'|]. split; [exact B'|]. intros p. rewrite C', C. cbn [filesOpt]. rewrite Ej. split.
      + intros [[H|H]|(e' & H & H')]; [auto|right; exists e; split; [now left|exact H]|right; exists e'; split; [now right|exact H']].
      + intros [H|(e' & [<-|H] & H')]; eauto. }
  intros Hl. destruct (G l (NDir []) Hl I ltac:(discriminate)) as (A & B & C). split; [exact A|]. split; [exact B|].
  intros p. rewrite C. cbn. tauto.
Qed.
