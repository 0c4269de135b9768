(** C70: the web site of `rothko run`: pages are rendered templates, other files
    are served as they are. *)
From Coq Require Import ZArith List Bool Lia String.
From Verif Require Import Base Maps Query Server Tgzfs TgzfsSpec Props_Tgzfs Site.
Import ListNotations.
Open Scope Z_scope.
Open Scope list_scope.

(** ** Specification *)
Definition ends_in (suffix p : list Z) : Prop := exists stem, p = stem ++ suffix.
(** a page is a file whose name ends in ".html" *)
Definition page_name (parts : list (list Z)) : Prop := exists dirs base, parts = dirs ++ [base] /\ ends_in (bytes_of ".html") base.

(** ** Lemmas *)
Lemma has_suffix_spec s p : has_suffix s p = true <-> ends_in s p.
Proof.
  unfold has_suffix. rewrite beqb_eq. split.
  - intros E. exists (firstn (List.length p - List.length s) p). transitivity (firstn (List.length p - List.length s) p ++ skipn (List.length p - List.length s) p); [symmetry; apply firstn_skipn|now rewrite E].
  - intros [st ->]. rewrite app_length. replace (List.length st + List.length s - List.length s)%nat with (List.length st) by lia.
    rewrite skipn_app, Nat.sub_diag, skipn_all. reflexivity.
Qed.
Lemma has_suffix_false s p : has_suffix s p = false <-> ~ ends_in s p.
Proof. rewrite <- has_suffix_spec. destruct (has_suffix s p); split; congruence. Qed.

(** names of a simplified rooted path *)
Definition simple (c : list Z) : Prop := c <> [] /\ c <> [dot] /\ c <> [dot; dot] /\ ~ In slash c.
Lemma in_clean rooted : forall l acc c, In c (clean_comps rooted acc l) -> In c l \/ In c acc.
Proof.
  induction l as [|x l IH]; intros acc c; cbn [clean_comps].
  - rewrite <- in_rev. auto.
  - destruct (beqb x [] || beqb x [dot]). { intros H. destruct (IH _ _ H); cbn; auto. }
    destruct (beqb x [dot; dot]).
    + destruct acc as [|a acc].
      * destruct rooted; intros H; destruct (IH _ _ H) as [?|[?|[]]] || destruct (IH _ _ H) as [?|[]]; cbn; auto.
      * destruct (beqb a [dot; dot]); intros H; destruct (IH _ _ H) as [H'|H']; cbn in *; intuition.
    + intros H; destruct (IH _ _ H) as [H'|H']; cbn in *; intuition.
Qed.
Lemma rooted_parts p : rooted_path p -> Forall simple (split_path p).
Proof.
  intros R. destruct (C59_path p) as (l & s & Pa & Si & Sm & E & _). pose proof (E (or_intror R)) as Es.
  apply Forall_forall. intros c Hc.
  destruct Sm as (ups & names & E2 & U & Ru & N). rewrite (Ru R) in E2. cbn [app] in E2. subst names.
  rewrite Es in Hc. destruct (N c Hc) as (A & B & C). repeat split; try assumption.
  assert (Hs : In c (split_on slash [] p)).
  { rewrite <- Es in Hc. unfold split_path in Hc. destruct R as [q ->]. cbn [split_path] in Hc. rewrite Z.eqb_refl in Hc.
    destruct (clean_comps true [] (split_on slash [] (47 :: q))) eqn:E3 in Hc; [destruct Hc|]. rewrite <- E3 in Hc.
    destruct (in_clean _ _ _ _ Hc) as [H|[]]. exact H. }
  destruct (split_parts_of p) as (_ & H & _). exact (H c Hs).
Qed.
Lemma split_on_simple : forall l c cur, Forall simple (c :: l) -> ~ In slash cur ->
  split_on slash cur (join_slash (c :: l)) = (rev cur ++ c) :: l.
Proof.
  assert (K : forall c r cur, ~ In slash c -> split_on slash cur (c ++ slash :: r) = (rev cur ++ c) :: split_on slash [] r).
  { induction c as [|x c IH]; intros r cur H; cbn [app split_on].
    - rewrite Z.eqb_refl, app_nil_r. reflexivity.
    - destruct (Z.eqb_spec x slash) as [->|_]; [exfalso; apply H; now left|]. rewrite IH by (intros X; apply H; now right). cbn [rev]. now rewrite <- app_assoc. }
  assert (K0 : forall c cur, ~ In slash c -> split_on slash cur c = [rev cur ++ c]).
  { induction c as [|x c IH]; intros cur H; cbn [split_on]; [now rewrite app_nil_r|].
    destruct (Z.eqb_spec x slash) as [->|_]; [exfalso; apply H; now left|]. rewrite IH by (intros X; apply H; now right). cbn [rev]. now rewrite <- app_assoc. }
  induction l as [|d l IH]; intros c cur F Hc.
  - cbn [join_slash]. apply K0. now destruct (Forall_inv F) as (_ & _ & _ & ?).
  - cbn [join_slash]. destruct (Forall_inv F) as (_ & _ & _ & Hs). rewrite K by exact Hs. f_equal.
    change (split_on slash [] (join_slash (d :: l)) = d :: l). rewrite IH; [reflexivity|now apply Forall_inv_tail in F|intros []].
Qed.
Lemma clean_simple : forall l acc, Forall simple l -> clean_comps true acc l = rev acc ++ l.
Proof.
  induction l as [|c l IH]; intros acc F; cbn [clean_comps]; [now rewrite app_nil_r|].
  destruct (Forall_inv F) as (A & B & C & _).
  assert (E1 : beqb c [] = false) by (destruct (beqb c []) eqn:E; [apply beqb_eq in E; congruence|reflexivity]).
  assert (E2 : beqb c [dot] = false) by (destruct (beqb c [dot]) eqn:E; [apply beqb_eq in E; congruence|reflexivity]).
  assert (E3 : beqb c [dot; dot] = false) by (destruct (beqb c [dot; dot]) eqn:E; [apply beqb_eq in E; congruence|reflexivity]).
  rewrite E1, E2, E3. cbn [orb]. rewrite IH by now apply Forall_inv_tail in F. cbn [rev]. now rewrite <- app_assoc.
Qed.
Lemma split_joined l : Forall simple l -> split_path (slash :: join_slash l) = l.
Proof.
  intros F. unfold split_path. rewrite Z.eqb_refl. cbn [split_on]. rewrite Z.eqb_refl.
  destruct l as [|c l].
  - reflexivity.
  - rewrite split_on_simple; [|exact F|intros []]. cbn [rev app].
    change (clean_comps true [] ([] :: c :: l)) with (clean_comps true [] (c :: l)). rewrite clean_simple by exact F. reflexivity.
Qed.
Lemma split_clean p : rooted_path p -> split_path (clean_path p) = split_path p.
Proof. intros R. unfold clean_path. apply split_joined, rooted_parts, R. Qed.

(** the cleaned path of a page ends in ".html", and no other does *)
Lemma join_last l c : join_slash (l ++ [c]) = match l with [] => c | _ => join_slash l ++ slash :: c end.
Proof.
  induction l as [|x l IH]; [reflexivity|]. cbn [app]. destruct l as [|y l]; [reflexivity|].
  change (x ++ slash :: join_slash ((y :: l) ++ [c]) = (x ++ slash :: join_slash (y :: l)) ++ slash :: c). rewrite IH. now rewrite <- app_assoc.
Qed.
Lemma ends_app s p q : ~ In slash s -> ends_in s (p ++ slash :: q) -> ends_in s q.
Proof.
  intros Hs [st E]. assert (L : (List.length s <= List.length q)%nat \/ (List.length q < List.length s)%nat) by lia. destruct L as [L|L].
  - exists (firstn (List.length q - List.length s) q).
    assert (E2 : skipn (List.length (p ++ slash :: q) - List.length s) (p ++ slash :: q) = s).
    { rewrite E, app_length. replace (List.length st + List.length s - List.length s)%nat with (List.length st) by lia. rewrite skipn_app, Nat.sub_diag, skipn_all. reflexivity. }
    replace (List.length (p ++ slash :: q) - List.length s)%nat with (List.length p + S (List.length q - List.length s))%nat in E2 by (rewrite app_length; cbn; lia).
    rewrite skipn_app, skipn_all2 in E2 by lia. replace (List.length p + S (List.length q - List.length s) - List.length p)%nat with (S (List.length q - List.length s)) in E2 by lia.
    cbn [skipn app] in E2. transitivity (firstn (List.length q - List.length s) q ++ skipn (List.length q - List.length s) q); [symmetry; apply firstn_skipn|now rewrite E2].
  - exfalso. assert (E2 : skipn (List.length (p ++ slash :: q) - List.length s) (p ++ slash :: q) = s).
    { rewrite E, app_length. replace (List.length st + List.length s - List.length s)%nat with (List.length st) by lia. rewrite skipn_app, Nat.sub_diag, skipn_all. reflexivity. }
    apply Hs. rewrite <- E2. assert (K : (List.length (p ++ slash :: q) - List.length s <= List.length p)%nat) by (rewrite app_length; cbn; lia).
    rewrite skipn_app. apply in_or_app. right. replace (List.length (p ++ slash :: q) - List.length s - List.length p)%nat with 0%nat by lia. now left.
Qed.
Lemma html_clean p : rooted_path p -> (has_suffix s_html (clean_path p) = true <-> page_name (split_path p)).
Proof.
  intros R. rewrite has_suffix_spec. pose proof (rooted_parts p R) as F. unfold clean_path.
  destruct (split_path p) as [|c l] using rev_ind.
  - cbn [join_slash]. split; [intros [st E]; destruct st as [|? [|? ?]]; discriminate|intros (d & b & E & _); destruct d; discriminate].
  - clear IHl. split.
    + intros H. exists l, c. split; [reflexivity|].
      assert (Hs : ~ In slash (bytes_of ".html")) by (vm_compute; intuition discriminate).
      rewrite join_last in H. destruct l as [|x l]; [apply (ends_app _ [] c Hs H)|].
      apply (ends_app _ (slash :: join_slash (x :: l)) c Hs). exact H.
    + intros (d & b & E & [st Eb]). apply app_inj_tail in E as [<- <-]. rewrite join_last. unfold ends_in. destruct l as [|x l].
      * exists (slash :: st). rewrite Eb. reflexivity.
      * exists (slash :: join_slash (x :: l) ++ slash :: st). rewrite Eb. cbn [app]. now rewrite <- app_assoc.
Qed.

Section Thms.
Variable render : list Z -> tvals -> option (list Z).
Variable is_dir : info -> bool.
Variable info_size : info -> Z.
Let serve_site := site render is_dir info_size.

Lemma w_open_plain s v name i d : contents (fs_open s name) = Some (i, d) -> has_suffix s_html name = false ->
  exists ls, w_open render s v name = Ok (Some (Plain i ls (rd_new d))).
Proof. unfold contents, w_open. destruct (fs_open s name) as [[fi dd ch]|]; [|discriminate]. intros [= -> ->] ->. cbn. eauto. Qed.
Lemma w_open_html s v name i d : contents (fs_open s name) = Some (i, d) -> has_suffix s_html name = true ->
  match render d v with
  | None => w_open render s v name = Panic
  | Some text => exists ls u, w_open render s v name = Ok (Some (Wrapped i ls u (len text) (rd_new text)))
  end.
Proof.
  unfold contents, w_open. destruct (fs_open s name) as [[fi dd ch]|]; [|discriminate]. intros [= -> ->] ->. cbn.
  destruct (render d v); cbn; eauto.
Qed.
Lemma copy_all d : rd_copy_n (len d) (rd_new d) = d.
Proof. unfold rd_copy_n, rd_rest, rd_new, len. cbn. rewrite Nat2Z.id. apply firstn_all. Qed.
Lemma upath_rooted p : rooted_path p -> match p with c :: _ => if c =? slash then p else slash :: p | [] => [slash] end = p.
Proof. intros [q ->]. now rewrite Z.eqb_refl. Qed.

(** a regular file of the archive is served with exactly its contents when it is
    not a page, and as its rendered text, with the rendered size, when it is *)
Theorem C70_file : forall ri l v path e,
  rooted_path path -> ~ ends_in (bytes_of "/") path -> ~ ends_in (bytes_of "/index.html") path ->
  last_entry l (split_path path) e -> is_dir (t_info e) = false ->
  (~ page_name (split_path path) -> info_size (t_info e) = len (t_data e) ->
     serve_site (fs_new ri l) v path = Ok (Content (len (t_data e)) (t_data e))) /\
  (forall text, page_name (split_path path) -> render (t_data e) v = Some text ->
     serve_site (fs_new ri l) v path = Ok (Content (len text) text)).
Proof.
  intros ri l v path e R N1 N2 L D. unfold serve_site, site. rewrite (upath_rooted _ R).
  assert (X2 : has_suffix s_slash_index path = false) by now apply has_suffix_false. rewrite X2.
  assert (X1 : has_suffix [slash] path = false) by now apply has_suffix_false.
  assert (C : contents (fs_open (fs_new ri l) (clean_path path)) = Some (Some (t_info e), t_data e)).
  { apply (proj1 (C59_open ri l _)). rewrite split_clean; assumption. }
  split.
  - intros NP Sz. assert (H : has_suffix s_html (clean_path path) = false).
    { destruct (has_suffix s_html (clean_path path)) eqn:E; [|reflexivity]. apply html_clean in E; [contradiction|exact R]. }
    destruct (w_open_plain _ v _ _ _ C H) as (ls & W). rewrite W. cbn [bind stat]. rewrite D. cbn [fst snd]. rewrite X1.
    unfold serve_content. cbn [h_data]. rewrite Sz, copy_all. reflexivity.
  - intros text P Hr. apply html_clean in P; [|exact R]. pose proof (w_open_html _ v _ _ _ C P) as W. rewrite Hr in W.
    destruct W as (ls & u & W). rewrite W. cbn [bind stat]. rewrite D. cbn [fst snd]. rewrite X1. unfold serve_content. cbn [h_data]. now rewrite copy_all.
Qed.

(** the front page: the root is answered with the rendered index.html *)
Theorem C70_index : forall ri l v path e text,
  rooted_path path -> ends_in (bytes_of "/") path -> split_path path = [] ->
  is_dir ri = true -> (forall x, In x l -> split_path (t_name x) <> []) ->
  last_entry l [bytes_of "index.html"] e -> is_dir (t_info e) = false -> render (t_data e) v = Some text ->
  serve_site (fs_new ri l) v path = Ok (Content (len text) text).
Proof.
  intros ri l v path e text R S Sp Dr Hn L D Hr. unfold serve_site, site. rewrite (upath_rooted _ R).
  assert (X1 : has_suffix [slash] path = true) by now apply has_suffix_spec.
  assert (X2 : has_suffix s_slash_index path = false).
  { apply has_suffix_false. intros [st E]. destruct S as [st' E']. rewrite E' in E. apply (f_equal (@rev Z)) in E. rewrite !rev_app_distr in E. discriminate. }
  rewrite X2. unfold clean_path. rewrite Sp. cbn [join_slash].
  assert (C : contents (fs_open (fs_new ri l) [slash]) = Some (Some ri, [])).
  { unfold fs_open. destruct (built_contents ri l []) as (_ & _ & K). specialize (K Hn eq_refl). change (split_path [slash]) with (@nil (list Z)).
    destruct (find [] (root (fs_new ri l))); [exact K|discriminate]. }
  destruct (w_open_plain _ v _ _ _ C eq_refl) as (ls & W). rewrite W. cbn [bind stat]. rewrite Dr. cbn [fst snd]. rewrite X1. cbn [negb].
  change (trim_slash [slash] ++ s_slash_index) with (bytes_of "/index.html").
  assert (C2 : contents (fs_open (fs_new ri l) (bytes_of "/index.html")) = Some (Some (t_info e), t_data e)) by (apply (proj1 (C59_open ri l _)); exact L).
  pose proof (w_open_html _ v _ _ _ C2 eq_refl) as W2. rewrite Hr in W2. destruct W2 as (ls2 & u & W2). rewrite W2. cbn [bind stat]. rewrite D. cbn [fst snd].
  unfold serve_content. cbn [h_data]. now rewrite copy_all.
Qed.

(** a path that is not in the archive: 404 without an index.html, otherwise the
    index: rendered for names of pages, but as it is, unrendered, for all others *)
Theorem C70_unknown : forall ri l v path,
  rooted_path path -> ~ ends_in (bytes_of "/") path -> ~ ends_in (bytes_of "/index.html") path ->
  nothing_at l (split_path path) -> split_path path <> [] ->
  ((forall e, In e l -> t_name e <> bytes_of "index.html" /\ t_name e <> bytes_of "./index.html") ->
     serve_site (fs_new ri l) v path = Ok (Status 404)) /\
  (forall e, (exists x, In x l /\ (t_name x = bytes_of "index.html" \/ t_name x = bytes_of "./index.html")) ->
     last_entry l [bytes_of "index.html"] e -> is_dir (t_info e) = false ->
     (~ page_name (split_path path) -> info_size (t_info e) = len (t_data e) ->
        serve_site (fs_new ri l) v path = Ok (Content (len (t_data e)) (t_data e))) /\
     (forall text, page_name (split_path path) -> render (t_data e) v = Some text ->
        serve_site (fs_new ri l) v path = Ok (Content (len text) text))).
Proof.
  intros ri l v path R N1 N2 Hn Hp. unfold serve_site, site. rewrite (upath_rooted _ R).
  assert (X2 : has_suffix s_slash_index path = false) by now apply has_suffix_false. rewrite X2.
  assert (X1 : has_suffix [slash] path = false) by now apply has_suffix_false.
  destruct (C59_open ri l (clean_path path)) as [_ U]. rewrite split_clean in U by exact R. destruct (U Hn Hp) as [U1 U2]. clear U. split.
  - intros Hno. unfold w_open. rewrite (U2 Hno). reflexivity.
  - intros e Hex L D. pose proof (U1 e Hex L) as C. split.
    + intros NP Sz. assert (H : has_suffix s_html (clean_path path) = false).
      { destruct (has_suffix s_html (clean_path path)) eqn:E; [|reflexivity]. apply html_clean in E; [contradiction|exact R]. }
      destruct (w_open_plain _ v _ _ _ C H) as (ls & W). rewrite W. cbn [bind stat]. rewrite D. cbn [fst snd]. rewrite X1.
      unfold serve_content. cbn [h_data]. rewrite Sz, copy_all. reflexivity.
    + intros text P Hr. apply html_clean in P; [|exact R]. pose proof (w_open_html _ v _ _ _ C P) as W. rewrite Hr in W.
      destruct W as (ls & u & W). rewrite W. cbn [bind stat]. rewrite D. cbn [fst snd]. rewrite X1. unfold serve_content. cbn [h_data]. now rewrite copy_all.
Qed.

(** the path of an index page redirects to its directory *)
Theorem C70_index_redirects : forall s v path, rooted_path path -> ends_in (bytes_of "/index.html") path -> serve_site s v path = Ok Redirect.
Proof. intros s v path R E. unfold serve_site, site. rewrite (upath_rooted _ R). apply has_suffix_spec in E. unfold s_slash_index. now rewrite E. Qed.

(** a page whose template fails does not answer with an error: the deferred
    Close is called on the nil named result, and the handler panics (for every
    page, every archive and every error) *)
Theorem C70_template_error_refuted : forall ri l v path e,
  rooted_path path -> ~ ends_in (bytes_of "/index.html") path -> page_name (split_path path) ->
  last_entry l (split_path path) e -> render (t_data e) v = None ->
  serve_site (fs_new ri l) v path = Panic.
Proof.
  intros ri l v path e R N2 P L Hr. unfold serve_site, site. rewrite (upath_rooted _ R).
  assert (X2 : has_suffix s_slash_index path = false) by now apply has_suffix_false. rewrite X2.
  assert (C : contents (fs_open (fs_new ri l) (clean_path path)) = Some (Some (t_info e), t_data e)) by (apply (proj1 (C59_open ri l _)); rewrite split_clean; assumption).
  apply html_clean in P; [|exact R]. pose proof (w_open_html _ v _ _ _ C P) as W. rewrite Hr in W. now rewrite W.
Qed.
End Thms.
Print Assumptions C70_file.
Print Assumptions C70_index.
Print Assumptions C70_unknown.
Print Assumptions C70_template_error_refuted.

(** ** Examples: an archive with "./", "./index.html" and "./js/main.js"; the
    template engine puts the metric after the text and fails on the text [0] *)
Definition ex_render (d : list Z) (v : tvals) : option (list Z) := if beqb d [0] then None else Some (d ++ v_metric v).
Definition ex_dir (i : info) : bool := i <? 10.
Definition ex_size (i : info) : Z := i - 10.
Definition ex_site : list tentry :=
  [ {| t_name := bytes_of "./"; t_info := 1; t_data := [] |};
    {| t_name := bytes_of "./index.html"; t_info := 13; t_data := [1; 2; 3] |};
    {| t_name := bytes_of "./js/main.js"; t_info := 12; t_data := [8; 9] |};
    {| t_name := bytes_of "./about.html"; t_info := 11; t_data := [5] |};
    {| t_name := bytes_of "./bad.html"; t_info := 11; t_data := [0] |} ].
Definition ex_vals := Vals (bytes_of "metric=m") (bytes_of "m") false.
Definition ex_answer (p : string) := site ex_render ex_dir ex_size (fs_new 0 ex_site) ex_vals (bytes_of p).
Example C70_example :
  ex_answer "/" = Ok (Content 4 [1; 2; 3; 109]) /\ ex_answer "/js/main.js" = Ok (Content 2 [8; 9]) /\
  ex_answer "/about.html" = Ok (Content 2 [5; 109]) /\ ex_answer "/index.html" = Ok Redirect /\
  ex_answer "/bad.html" = Panic /\ ex_answer "/none.html" = Ok (Content 4 [1; 2; 3; 109]).
Proof. vm_compute. repeat split. Qed.
(** the entries and paths of the example meet the hypotheses of the theorems *)
Example C70_hypotheses :
  last_entry ex_site (split_path (bytes_of "/about.html")) {| t_name := bytes_of "./about.html"; t_info := 11; t_data := [5] |} /\
  page_name (split_path (bytes_of "/about.html")) /\ ~ ends_in (bytes_of "/") (bytes_of "/about.html") /\
  nothing_at ex_site (split_path (bytes_of "/graph")) /\ (forall x, In x ex_site -> split_path (t_name x) <> []).
Proof.
  split; [|split; [|split; [|split]]].
  - exists (firstn 3 ex_site), (skipn 4 ex_site). split; [reflexivity|]. split; [reflexivity|]. intros e' [<-|[]]. discriminate.
  - exists [], (bytes_of "about.html"). split; [reflexivity|]. exists (bytes_of "about"). reflexivity.
  - apply has_suffix_false. reflexivity.
  - intros e q [<-|[<-|[<-|[<-|[<-|[]]]]]] H; discriminate.
  - intros x [<-|[<-|[<-|[<-|[<-|[]]]]]]; discriminate.
Qed.
(** so "every page the site answers with is rendered" fails: a path that is not
    in the archive gets the text of the template itself *)
Theorem C70_fallback_refuted : exists render is_dir info_size ri l v path e,
  last_entry l [bytes_of "index.html"] e /\ nothing_at l (split_path path) /\
  render (t_data e) v <> Some (t_data e) /\
  site render is_dir info_size (fs_new ri l) v path = Ok (Content (len (t_data e)) (t_data e)).
Proof.
  exists ex_render, ex_dir, ex_size, 0, ex_site, ex_vals, (bytes_of "/graph"), {| t_name := bytes_of "./index.html"; t_info := 13; t_data := [1; 2; 3] |}.
  split; [|split; [|split]].
  - exists (firstn 1 ex_site), (skipn 2 ex_site). split; [reflexivity|]. split; [reflexivity|]. intros e' [<-|[<-|[<-|[]]]]; discriminate.
  - apply C70_hypotheses.
  - discriminate.
  - vm_compute. reflexivity.
Qed.
Print Assumptions C70_fallback_refuted.

(** a build without a ui: GET of any path but the api and the four names of the
    front page is answered 404, those with 200, for every server and request that
    access control lets through *)
Theorem C70_no_ui : forall render is_dir info_size v o e r,
  e_static e = Some (static_handler render is_dir info_size None v) ->
  so_user o = [] -> rq_method r = bytes_of "GET" ->
  ~ In (rq_path r) [bytes_of "/api/render"; bytes_of "/api/query"; bytes_of "/api/nonce"] ->
  exists st, serve o e r = Ok (Resp st (origin_of o) false BStatic) /\
    (In (rq_path r) [bytes_of "/index.html"; bytes_of "index.html"; bytes_of "/"; []] -> st = 200) /\
    (~ In (rq_path r) [bytes_of "/index.html"; bytes_of "index.html"; bytes_of "/"; []] -> st = 404).
Proof.
  intros render is_dir info_size v o e r Hs Hu Hm Hp. unfold serve, serve_http. rewrite Hu, Hm, beqb_refl. cbn [negb].
  assert (K : forall x, In x [bytes_of "/api/render"; bytes_of "/api/query"; bytes_of "/api/nonce"] -> beqb (rq_path r) x = false).
  { intros x Hx. destruct (beqb (rq_path r) x) eqn:E; [|reflexivity]. apply beqb_eq in E. subst x. contradiction. }
  rewrite !K by (cbn; auto). rewrite Hs. cbn [static_handler]. eexists. split; [reflexivity|].
  unfold tarball_warning. split.
  - intros [<-|[<-|[<-|[<-|[]]]]]; reflexivity.
  - intros H. assert (K2 : forall x, In x [bytes_of "/index.html"; bytes_of "index.html"; bytes_of "/"; []] -> beqb (rq_path r) x = false).
    { intros x Hx. destruct (beqb (rq_path r) x) eqn:E; [|reflexivity]. apply beqb_eq in E. subst x. contradiction. }
    rewrite !K2 by (cbn; auto). reflexivity.
Qed.
Print Assumptions C70_no_ui.

(** a build with a ui: GET of a path besides the api is answered 301 for the path of
    an index page, 200 for a file of the archive, and 404 for other paths if there is
    no index.html, for every server and request that access control lets through *)
Theorem C70_with_ui : forall render is_dir info_size ri l v o e r,
  e_static e = Some (static_handler render is_dir info_size (Some (fs_new ri l)) v) ->
  so_user o = [] -> rq_method r = bytes_of "GET" ->
  ~ In (rq_path r) [bytes_of "/api/render"; bytes_of "/api/query"; bytes_of "/api/nonce"] -> rooted_path (rq_path r) ->
  exists st, serve o e r = Ok (Resp st (origin_of o) false BStatic) /\
    (ends_in (bytes_of "/index.html") (rq_path r) -> st = 301) /\
    (~ ends_in (bytes_of "/") (rq_path r) -> ~ ends_in (bytes_of "/index.html") (rq_path r) ->
     (forall x, last_entry l (split_path (rq_path r)) x -> is_dir (t_info x) = false -> info_size (t_info x) = len (t_data x) ->
        (page_name (split_path (rq_path r)) -> exists text, render (t_data x) v = Some text) -> st = 200) /\
     (nothing_at l (split_path (rq_path r)) -> split_path (rq_path r) <> [] ->
        (forall x, In x l -> t_name x <> bytes_of "index.html" /\ t_name x <> bytes_of "./index.html") -> st = 404)).
Proof.
  intros render is_dir info_size ri l v o e r Hs Hu Hm Hp R. unfold serve, serve_http. rewrite Hu, Hm, beqb_refl. cbn [negb].
  assert (K : forall x, In x [bytes_of "/api/render"; bytes_of "/api/query"; bytes_of "/api/nonce"] -> beqb (rq_path r) x = false).
  { intros x Hx. destruct (beqb (rq_path r) x) eqn:E; [|reflexivity]. apply beqb_eq in E. subst x. contradiction. }
  rewrite !K by (cbn; auto). rewrite Hs. cbn [static_handler]. eexists. split; [reflexivity|]. split; [|intros N1 N2; split].
  - intros E. rewrite (C70_index_redirects render is_dir info_size _ v _ R E). reflexivity.
  - intros x L D Sz Hr. destruct (C70_file render is_dir info_size ri l v _ x R N1 N2 L D) as [F1 F2].
    destruct (has_suffix s_html (clean_path (rq_path r))) eqn:P.
    + apply html_clean in P; [|exact R]. destruct (Hr P) as (text & E). rewrite (F2 text P E). reflexivity.
    + rewrite F1; [reflexivity| |exact Sz]. intros Q. apply html_clean in Q; [congruence|exact R].
  - intros Hn Hne Hno. rewrite (proj1 (C70_unknown render is_dir info_size ri l v _ R N1 N2 Hn Hne) Hno). reflexivity.
Qed.
Print Assumptions C70_with_ui.
