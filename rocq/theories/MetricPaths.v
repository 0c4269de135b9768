(** Paths of data files and directory listings. *)
From Coq Require Import ZArith List Lia Bool.
From Verif Require Import Base Maps Convert ConvertSpec ConvertProofs Metric.
Import ListNotations.
Open Scope Z_scope.

(** the root with exactly one slash behind it, and without it *)
Definition root_slash (root : list Z) : list Z :=
  if (0 <? len root) && negb (at_ (len root - 1) root =? 47) then root ++ [47] else root.

(** the directory of metric [name] and the path of its data file [i] *)
Definition dir_of (root name : list Z) : list Z := metricDir root name.
Definition path_of (root name : list Z) (i : Z) : list Z := metricFilenameAt (dir_of root name) i.

Lemma last_decomp (l : list Z) : l <> [] -> exists a x, l = a ++ [x].
Proof. intros H. destruct (exists_last H) as (a & x & ->). eauto. Qed.

Lemma at_last a x : at_ (len (a ++ [x]) - 1) (a ++ [x]) = x.
Proof.
  unfold at_, len. rewrite app_length. cbn [length].
  replace (Z.to_nat _) with (length a) by lia. rewrite app_nth2, Nat.sub_diag by lia. reflexivity.
Qed.

Lemma len_snoc_pos {A} (a : list A) x : (0 <? len (a ++ [x])) = true.
Proof. apply Z.ltb_lt. unfold len. rewrite app_length. cbn. lia. Qed.

Lemma root_slash_shape root : root <> [] -> exists rb, root_slash root = rb ++ [47].
Proof.
  intros H. destruct (last_decomp root H) as (a & x & ->). unfold root_slash.
  rewrite len_snoc_pos, at_last. destruct (Z.eqb_spec x 47) as [->|]; cbn [andb negb]; eauto.
Qed.

(** what is left of the root: [rb], with the directory tree hanging below *)
Definition root_base (root : list Z) : list Z := firstn (length (root_slash root) - 1) (root_slash root).
Lemma root_base_slash root : root <> [] -> root_slash root = root_base root ++ [47].
Proof.
  intros H. destruct (root_slash_shape root H) as (rb & E). unfold root_base. rewrite E.
  rewrite app_length. cbn [length]. replace (length rb + 1 - 1)%nat with (length rb) by lia.
  rewrite firstn_app, Nat.sub_diag, firstn_all. cbn [firstn]. now rewrite app_nil_r.
Qed.

Lemma dir_of_eq root name : dir_of root name = root_slash root ++ metricToDir [] name.
Proof. unfold dir_of, metricDir. fold (root_slash root). apply metricToDir_base. Qed.

Lemma m2d_ends name : name <> [] -> exists a x, metricToDir [] name = a ++ [x] /\ x <> 47.
Proof.
  intros H. pose proof (metricToDir_components_ name H) as F.
  destruct (metricToDir [] name) as [|y l] eqn:E.
  - cbn in F. inversion F as [|? ? (Hn & _) _]; subst. now contradiction Hn.
  - destruct (last_decomp (y :: l) ltac:(discriminate)) as (a & x & E2). exists a, x. split; [exact E2|].
    intros ->. rewrite E2 in F.
    assert (In [] (components (a ++ [47]))) as Hin.
    { clear. induction a as [|c a IH]; cbn [app components].
      - cbn. auto.
      - destruct (c =? 47); [right; exact IH|].
        destruct (components (a ++ [47])) as [|h t] eqn:E; [contradiction|].
        destruct a as [|c' a'].
        + cbn in E. injection E as <- <-. right. left. reflexivity.
        + destruct IH as [->|IH]; [|right; exact IH].
          (* first component empty: still an empty component at the end *)
          right. destruct t as [|t0 t].
          * exfalso. assert (forall l, components (l ++ [47]) <> [[]]) as X.
            { clear. intros l. destruct l as [|c l]; cbn; [discriminate|].
              destruct (c =? 47); [|destruct (components (l ++ [47])); discriminate].
              destruct l; cbn; [discriminate|]. destruct (z =? 47); [discriminate|].
              destruct (components (l ++ [47])); discriminate. }
            exact (X _ E).
          * assert (forall l, l <> [] -> In [] (tl (components (l ++ [47])))) as X.
            { clear. induction l as [|c l IH]; intros Hl; [contradiction|]. cbn [app components].
              destruct l as [|c' l'].
              - cbn. destruct (c =? 47); cbn; auto.
              - specialize (IH ltac:(discriminate)). cbn [app] in IH.
                destruct (c =? 47).
                + cbn [tl]. destruct (components ((c' :: l') ++ [47])) eqn:Q; cbn [app] in *;
                  rewrite Q in *; [contradiction|right; exact IH].
                + destruct (components ((c' :: l') ++ [47])) eqn:Q; cbn [app] in *;
                  rewrite Q in *; [contradiction|exact IH]. }
            specialize (X (c' :: a') ltac:(discriminate)). rewrite E in X. exact X. }
    rewrite Forall_forall in F. specialize (F [] Hin). destruct F as (Hn & _). now contradiction Hn.
Qed.

(** directory without its trailing slash *)
Lemma clean_dir_of root name : root <> [] ->
  clean_dir (dir_of root name) = match name with [] => root_base root | _ => root_base root ++ [47] ++ metricToDir [] name end.
Proof.
  intros H. rewrite dir_of_eq, (root_base_slash root H).
  destruct name as [|ch name].
  - change (metricToDir [] []) with (@nil Z). rewrite app_nil_r. unfold clean_dir.
    rewrite len_snoc_pos, at_last. change (47 =? c_slash) with true. cbn [andb].
    rewrite app_length. cbn [length]. rewrite firstn_app.
    replace (length (root_base root) + 1 - 1)%nat with (length (root_base root)) by lia.
    rewrite firstn_all, Nat.sub_diag. cbn [firstn]. now rewrite app_nil_r.
  - destruct (m2d_ends (ch :: name) ltac:(discriminate)) as (a & x & E & Hx).
    rewrite E, (app_assoc _ a). unfold clean_dir. rewrite len_snoc_pos, at_last.
    unfold c_slash. destruct (Z.eqb_spec x 47); [contradiction|]. cbn [andb]. now rewrite <- !app_assoc.
Qed.

Lemma path_shape root name i : root <> [] ->
  path_of root name i = clean_dir (dir_of root name) ++ 47 :: (itoa i ++ s_data).
Proof.
  intros H. rewrite clean_dir_of by auto. unfold path_of, metricFilenameAt.
  rewrite dir_of_eq, (root_base_slash root H).
  destruct name as [|ch name].
  - change (metricToDir [] []) with (@nil Z). rewrite app_nil_r, len_snoc_pos, at_last.
    change (47 =? c_slash) with true. cbn [andb negb]. now rewrite <- app_assoc.
  - destruct (m2d_ends (ch :: name) ltac:(discriminate)) as (a & x & E & Hx).
    rewrite E. rewrite (app_assoc _ a), len_snoc_pos, at_last. unfold c_slash.
    destruct (Z.eqb_spec x 47); [contradiction|]. cbn [andb negb].
    rewrite <- !app_assoc. reflexivity.
Qed.

Lemma path_of_rel root name i : root <> [] ->
  path_of root name i = root_slash root ++ metricToPath [] name i.
Proof.
  intros H. rewrite path_shape, clean_dir_of by auto. rewrite (root_base_slash root H).
  unfold metricToPath. destruct name as [|ch name].
  - change (metricToDir [] []) with (@nil Z). cbn [len length Z.of_nat Z.ltb]. 
    change (0 <? len (@nil Z)) with false. cbn match. now rewrite <- app_assoc.
  - destruct (m2d_ends (ch :: name) ltac:(discriminate)) as (a & x & E & Hx).
    rewrite E, len_snoc_pos. unfold c_slash. rewrite <- !app_assoc. reflexivity.
Qed.

Lemma path_inj root n1 n2 i1 i2 : root <> [] -> is_i64 i1 -> is_i64 i2 ->
  path_of root n1 i1 = path_of root n2 i2 -> n1 = n2 /\ i1 = i2.
Proof.
  intros H H1 H2 E. rewrite !path_of_rel in E by auto. apply app_inv_head in E.
  now apply metricToPath_inj_.
Qed.

Lemma clean_dir_inj root n1 n2 : root <> [] ->
  clean_dir (dir_of root n1) = clean_dir (dir_of root n2) -> n1 = n2.
Proof.
  intros H E. assert (path_of root n1 1 = path_of root n2 1) as P by (rewrite !path_shape by auto; now rewrite E).
  apply path_inj in P; auto; [tauto| |]; unfold is_i64; lia.
Qed.

(** ** split_last *)
Lemma split_last_none n : ~ In 47 n -> split_last n = None.
Proof.
  induction n as [|c n IH]; intros H; [reflexivity|]. cbn [split_last].
  rewrite IH by (intros X; apply H; now right). unfold c_slash.
  destruct (Z.eqb_spec c 47) as [->|]; [exfalso; apply H; now left|reflexivity].
Qed.
Lemma split_last_app d n : ~ In 47 n -> split_last (d ++ 47 :: n) = Some (d, n).
Proof.
  intros H. induction d as [|c d IH]; cbn [app split_last].
  - rewrite split_last_none by auto. reflexivity.
  - now rewrite IH.
Qed.
Lemma split_last_some p d n : split_last p = Some (d, n) -> p = d ++ 47 :: n /\ ~ In 47 n.
Proof.
  revert d n. induction p as [|c p IH]; intros d n; [discriminate|]. cbn [split_last].
  destruct (split_last p) as [[d' n']|] eqn:E.
  - intros [= <- <-]. destruct (IH d' n' eq_refl) as [-> H]. auto.
  - unfold c_slash. destruct (Z.eqb_spec c 47) as [->|]; [|discriminate].
    intros [= <- <-]. split; [reflexivity|].
    clear IH. revert E. induction p as [|c p IH]; intros E; [auto|]. cbn [split_last] in E.
    destruct (split_last p) as [[? ?]|] eqn:E2; [discriminate|].
    unfold c_slash in E. destruct (Z.eqb_spec c 47); [discriminate|].
    intros [->|Hin]; [contradiction|]. now apply IH.
Qed.

Lemma child_of_path root name name' i : root <> [] -> is_i64 i ->
  child_of (clean_dir (dir_of root name)) (path_of root name' i) =
  if beqb name' name then [itoa i ++ s_data] else [].
Proof.
  intros H Hi. unfold child_of. rewrite path_shape by auto.
  rewrite split_last_app by now apply filename_no_slash.
  destruct (beqb name' name) eqn:E.
  - apply beqb_eq in E. subst. now rewrite (proj2 (beqb_eq _ _) eq_refl).
  - destruct (beqb (clean_dir (dir_of root name')) _) eqn:E2; [|reflexivity].
    apply beqb_eq, clean_dir_inj in E2; auto. subst.
    rewrite (proj2 (beqb_eq _ _) eq_refl) in E. discriminate.
Qed.

(** ** directories *)
(** a directory below the root has a base name without dots *)
Definition dir_fine (root d : list Z) : Prop :=
  forall d' n, split_last d = Some (d', n) ->
    (length d' < length (root_base root))%nat \/ ~ In 46 n.

Lemma ancestors_prefix : forall p pre a, In a (ancestors pre p) ->
  exists r, pre ++ p = a ++ r /\ (r = [] \/ exists r', r = 47 :: r').
Proof.
  induction p as [|c p IH]; intros pre a; cbn [ancestors].
  - intros [<-|[]]. exists []. auto.
  - unfold c_slash. destruct (Z.eqb_spec c 47) as [->|].
    + intros [<-|Hin].
      * exists (47 :: p). eauto.
      * destruct (IH _ _ Hin) as (r & E & Hr). rewrite <- app_assoc in E. eauto.
    + intros Hin. destruct (IH _ _ Hin) as (r & E & Hr). rewrite <- app_assoc in E. eauto.
Qed.

Lemma components_mid x : forall y, components (x ++ 47 :: y) = components x ++ components y.
Proof.
  induction x as [|c x IH]; intros y; cbn [app components]; [reflexivity|].
  destruct (c =? 47); [now rewrite IH|]. rewrite IH.
  destruct (components x) as [|h t] eqn:E; [|reflexivity].
  exfalso. revert E. clear. destruct x as [|z x]; cbn; [discriminate|].
  destruct (z =? 47); [discriminate|]. destruct (components x); discriminate.
Qed.

Lemma component_in n r : ~ In 47 n -> (r = [] \/ exists r', r = 47 :: r') ->
  In n (components (n ++ r)).
Proof.
  intros H [->|(r' & ->)].
  - rewrite app_nil_r, components_clean by auto. now left.
  - rewrite components_app by auto. now left.
Qed.

Lemma app_eq_prefix (a b c d : list Z) : a ++ b = c ++ d -> (length c <= length a)%nat ->
  exists x, a = c ++ x /\ d = x ++ b.
Proof.
  revert c. induction a as [|h a IH]; intros c E L; destruct c as [|h' c]; cbn in *; try lia.
  - exists []. auto.
  - exists (h :: a). auto.
  - injection E as -> E. destruct (IH c E ltac:(lia)) as (x & -> & ->). eauto.
Qed.

Lemma mkdir_fine root name a : root <> [] ->
  In a (ancestors [] (clean_dir (dir_of root name))) -> dir_fine root a.
Proof.
  intros H Hin d' n Hsp. apply split_last_some in Hsp. destruct Hsp as [-> Hn].
  destruct (ancestors_prefix _ _ _ Hin) as (r & E & Hr). cbn [app] in E.
  rewrite clean_dir_of in E by auto.
  destruct name as [|ch name].
  - left. apply (f_equal (@length Z)) in E. rewrite !app_length in E. cbn [length] in E. lia.
  - destruct (Nat.lt_ge_cases (length d') (length (root_base root))) as [|Hge]; [now left|right].
    rewrite <- app_assoc in E. cbn [app] in E. symmetry in E.
    destruct (app_eq_prefix _ _ _ _ E Hge) as (x & -> & E2).
    pose proof (metricToDir_components_ (ch :: name) ltac:(discriminate)) as F.
    set (md := metricToDir [] (ch :: name)) in *.
    assert (In n (components md)) as Hc.
    { destruct x as [|x0 x]; cbn [app] in E2; injection E2 as E2.
      - rewrite E2. now apply component_in.
      - subst x0. rewrite H0. rewrite components_mid. apply in_app_iff. right. now apply component_in. }
    rewrite Forall_forall in F. apply (F n Hc).
Qed.

Lemma suffix_has_dot n : ~ In 46 n -> dataFileNumber n = None.
Proof.
  intros H. unfold dataFileNumber, hasSuffix.
  destruct (Nat.leb (length s_data) (length n)) eqn:E; cbn [andb]; [|reflexivity].
  destruct (beqb _ _) eqn:E2; [|reflexivity]. exfalso. apply beqb_eq in E2.
  apply H. rewrite <- (firstn_skipn (length n - length s_data) n). apply in_app_iff. right.
  rewrite E2. now left.
Qed.

(** ** the scan over a directory *)
Fixpoint numbers (names : list (list Z)) : list Z :=
  match names with
  | [] => []
  | n :: r => match dataFileNumber n with Some i => i :: numbers r | None => numbers r end
  end.

Lemma numbers_app a b : numbers (a ++ b) = numbers a ++ numbers b.
Proof. induction a; cbn; [reflexivity|]. destruct (dataFileNumber a); cbn; congruence. Qed.

Definition scan_num (s : Z * Z * bool) (iv : Z) : Z * Z * bool :=
  let '(first, last, first_set) := s in
  let last := if last <? iv then iv else last in
  if (iv <? first) || negb first_set then (iv, last, true) else (first, last, first_set).

Lemma scan_numbers names : forall s, fold_left scan_step names s = fold_left scan_num (numbers names) s.
Proof.
  induction names as [|n names IH]; intros s; cbn [fold_left numbers]; [reflexivity|].
  unfold scan_step at 2. destruct s as [[f l] b].
  destruct (dataFileNumber n) as [iv|] eqn:E; cbn [fold_left]; rewrite IH; reflexivity.
Qed.

Lemma scan_set_spec nums : forall f l, 
  fold_left scan_num nums (f, l, true) =
  (fold_left Z.min nums f, fold_left Z.max nums l, true).
Proof.
  induction nums as [|n nums IH]; intros f l; cbn [fold_left]; [reflexivity|].
  unfold scan_num at 2. cbn [negb orb].
  assert (El : (if l <? n then n else l) = Z.max l n) by (destruct (Z.ltb_spec l n); lia).
  rewrite El. destruct (Z.ltb_spec n f); cbn [orb]; rewrite IH; do 2 f_equal; f_equal; lia.
Qed.

Lemma fold_min_bounds nums : forall a f, (forall n, In n nums -> a <= n) -> a <= f ->
  In a (f :: nums) -> fold_left Z.min nums f = a.
Proof.
  induction nums as [|n nums IH]; intros a f Hb Hf Hin; cbn [fold_left].
  - destruct Hin as [->|[]]. reflexivity.
  - apply IH.
    + intros x Hx. apply Hb. now right.
    + specialize (Hb n (or_introl eq_refl)). lia.
    + specialize (Hb n (or_introl eq_refl)). destruct Hin as [->|[->|Hin]]; [left; lia|left; lia|now right].
Qed.
Lemma fold_max_bounds nums : forall a f, (forall n, In n nums -> n <= a) -> f <= a ->
  In a (f :: nums) -> fold_left Z.max nums f = a.
Proof.
  induction nums as [|n nums IH]; intros a f Hb Hf Hin; cbn [fold_left].
  - destruct Hin as [->|[]]. reflexivity.
  - apply IH.
    + intros x Hx. apply Hb. now right.
    + specialize (Hb n (or_introl eq_refl)). lia.
    + specialize (Hb n (or_introl eq_refl)). destruct Hin as [->|[->|Hin]]; [left; lia|left; lia|now right].
Qed.

Lemma scan_range names a b : 1 <= a <= b ->
  (forall i, In i (numbers names) -> a <= i <= b) ->
  In a (numbers names) -> In b (numbers names) ->
  fold_left scan_step names (0, 0, false) = (a, b, true).
Proof.
  intros Hab Hr Ha Hb. rewrite scan_numbers. destruct (numbers names) as [|n nums]; [contradiction|].
  cbn [fold_left]. unfold scan_num at 2. cbn [negb]. rewrite orb_true_r.
  rewrite scan_set_spec.
  assert (Hn : a <= n <= b) by (apply Hr; now left).
  replace (if 0 <? n then n else 0) with n by (destruct (Z.ltb_spec 0 n); lia).
  rewrite (fold_min_bounds nums a n), (fold_max_bounds nums b n); auto; try lia.
  - intros x Hx. apply (Hr x). now right.
  - intros x Hx. apply (Hr x). now right.
Qed.

Lemma scan_none names : numbers names = [] -> fold_left scan_step names (0, 0, false) = (0, 0, false).
Proof. intros H. rewrite scan_numbers, H. reflexivity. Qed.
