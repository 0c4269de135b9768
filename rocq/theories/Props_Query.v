(** Properties C40-C42: patterns, queries and searches. *)
From Coq Require Import ZArith List Lia Bool.
From Verif Require Import Base Query QuerySpec QueryProofs.
Import ListNotations.
Open Scope Z_scope.

(** * C40 *)
(** the match always terminates with an answer *)
Theorem C40_decides : forall pat name, exists b, glob pat name = Ok b.
Proof. exact glob_total. Qed.
(** A pattern (lowered, as the search makes them) that does not end in * *)
Theorem C40_glob_partial :
  forall pat name, lowered pat -> last pat 0 <> 42 ->
  (glob pat name = Ok true <-> matches pat name).
Proof.
  intros pat name Hl Hlast. destruct (glob_R pat name) as (b & E & B). rewrite E.
  transitivity (R pat name); [rewrite <- B; split; [now intros [= ->]|now intros ->]|]. split.
  - apply R_written. assumption.
  - intros (t & rest & -> & W). apply written_R; assumption.
Qed.
(** whatever matches is written so (also when the pattern ends in a star) *)
Theorem C40_sound :
  forall pat name, lowered pat -> glob pat name = Ok true -> matches pat name.
Proof.
  intros pat name Hl H. destruct (glob_R pat name) as (b & E & B). rewrite E in H. injection H as ->.
  apply R_written; [assumption|]. now apply B.
Qed.
(** A final * stands for at least one character: it is the same as a ?. *)
Theorem C40_final_star :
  forall pat name, glob (pat ++ [42]) name = glob (pat ++ [63]) name.
Proof.
  intros pat name. destruct (glob_R (pat ++ [42]) name) as (b & -> & B). destruct (glob_R (pat ++ [63]) name) as (b' & -> & B').
  f_equal. pose proof (R_trailing pat name) as T. unfold ch_star, ch_quest in T. destruct b, b'; try reflexivity; exfalso.
  - assert (false = true) by (apply B', T, B; reflexivity). discriminate.
  - assert (false = true) by (apply B, T, B'; reflexivity). discriminate.
Qed.
(** so the property fails there: "abc*" does not match "abc" *)
Theorem C40_glob_refuted :
  exists pat name, lowered pat /\ matches pat name /\ glob pat name = Ok false.
Proof.
  exists [97; 98; 99; 42], [97; 98; 99]. split; [intros c [<-|[<-|[<-|[<-|[]]]]]; lia|]. split; [|vm_compute; reflexivity].
  exists [97; 98; 99], []. split; [reflexivity|].
  repeat (constructor; [lia|lia|now left|]). change (written [42] ([] ++ [])). constructor. constructor.
Qed.
(** "*b?a*e" matches "aBbABcE!" *)
Example C40_example :
  let pat := [42; 98; 63; 97; 42; 101] in let name := [97; 66; 98; 65; 66; 99; 69; 33] in
  lowered pat /\ last pat 0 <> 42 /\ glob pat name = Ok true /\ glob pat [98; 97; 101] = Ok false.
Proof. cbn zeta. split; [intros c H; repeat (destruct H as [<-|H]; [lia|]); destruct H|]. split; [cbn; lia|]. split; vm_compute; reflexivity. Qed.

(** * C41 *)
(** A name matches a query word iff some run of consecutive components is
    matched, in order, by the patterns of the word: its dotted parts, each in
    lower case after a *. *)
Theorem C41_spec :
  forall q m qs l, components q qs -> components m l ->
  exists b, spec_match (new_spec q) m = Ok b /\
  (b = true <-> exists before run after, l = before ++ run ++ after /\
                Forall2 (fun part c => glob (42 :: map lower part) c = Ok true) qs run).
Proof.
  intros q m qs l Hq Hl. destruct (new_spec_ne q) as [A B].
  destruct (spec_match_ok (new_spec q) m l A B Hl) as (b & E & H). exists b. split; [exact E|]. rewrite H. clear H.
  unfold new_spec. fold (comps q). rewrite (components_unique _ _ _ Hq (comps_ok _ q (le_n _))).
  assert (M : forall ps run, Forall2 gok (map globify ps) run <-> Forall2 (fun part c => glob (42 :: map lower part) c = Ok true) ps run).
  { induction ps as [|p ps IH]; intros run; split; intros F; inversion F; subst; constructor; auto; now apply IH. }
  split; intros (x & y & z & L & F); exists x, y, z; (split; [exact L|]); now apply M.
Qed.
(** A word without wildcards: each part is contained in its component, ignoring
    case (an empty part asks only for a component that is not empty). *)
Theorem C41_plain_words :
  forall q m qs l, components q qs -> components m l -> ~ In 42 q -> ~ In 63 q ->
  exists b, spec_match (new_spec q) m = Ok b /\
  (b = true <-> exists before run after, l = before ++ run ++ after /\
                Forall2 (fun part c => c <> [] /\ contains c part) qs run).
Proof.
  intros q m qs l Hq Hl Hs Hm. destruct (C41_spec q m qs l Hq Hl) as (b & E & B). exists b. split; [exact E|]. rewrite B.
  assert (Hin : forall l part x, In part l -> In x part -> In x (joined l)).
  { clear. induction l as [|c l IH]; intros part x Hp Hx; [contradiction|].
    destruct l as [|d l]; [destruct Hp as [->|[]]; exact Hx|]. rewrite joined_cons by discriminate. apply in_or_app.
    destruct Hp as [->|Hp]; [now left|]. right. right. eapply IH; eauto. }
  assert (P : forall part, In part qs -> plain part).
  { intros part Hp. destruct Hq as (_ & J & _). split; intros X; [apply Hs|apply Hm]; rewrite <- J; eapply Hin; eauto. }
  assert (M : forall run, Forall2 (fun part c => glob (42 :: map lower part) c = Ok true) qs run <-> Forall2 (fun part c => c <> [] /\ contains c part) qs run).
  { clear - P. induction qs as [|p ps IH]; intros run; split; intros F; inversion F as [|? c ? run' G F']; subst; constructor.
    - apply (glob_plain p c); [apply P; now left|exact G].
    - apply IH; [intros; apply P; now right|assumption].
    - apply (glob_plain p c); [apply P; now left|exact G].
    - apply IH; [intros; apply P; now right|assumption]. }
  split; intros (x & y & z & L & F); exists x, y, z; (split; [exact L|]); now apply M.
Qed.
(** every name has components, exactly one list of them *)
Theorem C41_components : forall m, exists l, components m l /\ forall l', components m l' -> l' = l.
Proof.
  intros m. exists (comps m). split; [apply (comps_ok _ m (le_n _))|]. intros l' H. eapply components_unique; [exact H|apply (comps_ok _ m (le_n _))].
Qed.
(** foo.bar in A.Foo1.xbar.z, not in foo.a.bar *)
Example C41_example :
  components [102; 111; 111; 46; 98; 97; 114] [[102; 111; 111]; [98; 97; 114]] /\
  components [65; 46; 70; 111; 111; 49; 46; 120; 98; 97; 114; 46; 122] [[65]; [70; 111; 111; 49]; [120; 98; 97; 114]; [122]] /\
  spec_match (new_spec [102; 111; 111; 46; 98; 97; 114]) [65; 46; 70; 111; 111; 49; 46; 120; 98; 97; 114; 46; 122] = Ok true /\
  spec_match (new_spec [102; 111; 111; 46; 98; 97; 114]) [102; 111; 111; 46; 97; 46; 98; 97; 114] = Ok false.
Proof.
  split; [|split; [|split; vm_compute; reflexivity]].
  - split; [discriminate|]. split; [reflexivity|]. intros c [<-|[<-|[]]] H; repeat (destruct H as [H|H]; [discriminate|]); destruct H.
  - split; [discriminate|]. split; [reflexivity|]. intros c [<-|[<-|[<-|[<-|[]]]]] H; repeat (destruct H as [H|H]; [discriminate|]); destruct H.
Qed.

(** * C42 *)
(** [ok] decides whether a name matches all the words of the query *)
Definition decides_query (q : list Z) (ok : list Z -> bool) : Prop :=
  forall ws, worded q ws -> forall n, ok n = true <-> forall w, In w ws -> spec_match (new_spec w) n = Ok true.
(** a query has exactly one list of words, the one the search uses *)
Theorem C42_query_words : forall q ws, fields q = ws <-> worded q ws.
Proof. exact fields_worded. Qed.
(** A search of capacity k over a list of names (stopped as soon as Add says
    so) keeps the first k matching names in order. *)
Theorem C42_search :
  forall q k ok names, 0 <= k -> decides_query q ok ->
  exists s go s', search_new q k = Ok s /\ search_run names s = Ok (go, s') /\
  se_matched s' = firstn (Z.to_nat k) (filter ok names).
Proof.
  intros q k ok names Hk Hok. unfold search_new. replace (k <? 0) with false by lia.
  set (s := Search (map new_spec (fields q)) k []).
  destruct (search_run_ok names s (good_new _)) as (go & s' & E1 & E2 & E3 & E4); [cbn; lia|].
  exists s, go, s'. split; [reflexivity|]. split; [exact E1|]. rewrite E4. cbn [s se_matched se_cap se_specs app length]. rewrite Nat.sub_0_r. f_equal.
  apply filter_ext. intros n. specialize (Hok _ (proj1 (fields_worded q _) eq_refl) n).
  assert (S : smatch (map new_spec (fields q)) n = true <-> forall w, In w (fields q) -> spec_match (new_spec w) n = Ok true).
  { unfold smatch. rewrite forallb_forall. split.
    - intros H w Hw. specialize (H (new_spec w) (in_map _ _ _ Hw)). destruct (spec_match (new_spec w) n) as [[]| | |]; congruence.
    - intros H sp Hsp. apply in_map_iff in Hsp. destruct Hsp as (w & <- & Hw). rewrite (H w Hw). reflexivity. }
  destruct (smatch _ n), (ok n); try reflexivity; exfalso.
  - assert (false = true) by (apply Hok, S; reflexivity). discriminate.
  - assert (false = true) by (apply S, Hok; reflexivity). discriminate.
Qed.
Lemma decides_smatch q ok : decides_query q ok -> forall n, smatch (map new_spec (fields q)) n = ok n.
Proof.
  intros Hok n. specialize (Hok _ (proj1 (fields_worded q _) eq_refl) n).
  assert (S : smatch (map new_spec (fields q)) n = true <-> forall w, In w (fields q) -> spec_match (new_spec w) n = Ok true).
  { unfold smatch. rewrite forallb_forall. split.
    - intros H w Hw. specialize (H (new_spec w) (in_map _ _ _ Hw)). destruct (spec_match (new_spec w) n) as [[]| | |]; congruence.
    - intros H sp Hsp. apply in_map_iff in Hsp. destruct Hsp as (w & <- & Hw). rewrite (H w Hw). reflexivity. }
  destruct (smatch _ n), (ok n); try reflexivity; exfalso.
  - assert (false = true) by (apply Hok, S; reflexivity). discriminate.
  - assert (false = true) by (apply S, Hok; reflexivity). discriminate.
Qed.
(** The search stops early exactly when a name is left after k matches. *)
Theorem C42_stops :
  forall q k ok names, 0 <= k -> decides_query q ok ->
  exists s go s', search_new q k = Ok s /\ search_run names s = Ok (go, s') /\
  (go = false <-> exists a n b, names = a ++ n :: b /\ k <= Z.of_nat (length (filter ok a))).
Proof.
  intros q k ok names Hk Hok. unfold search_new. replace (k <? 0) with false by lia.
  set (s := Search (map new_spec (fields q)) k []).
  destruct (search_run_ok names s (good_new _)) as (go & s' & E1 & _); [cbn; lia|].
  exists s, go, s'. split; [reflexivity|]. split; [exact E1|]. apply search_run_stop in E1; [|apply good_new|cbn; lia].
  rewrite E1. cbn [s se_cap se_matched se_specs]. unfold len. cbn [length].
  split; intros (a & n & b & E & L); exists a, n, b; (split; [exact E|]); rewrite (filter_ext _ _ (decides_smatch q ok Hok)) in *; lia.
Qed.
(** After any names were added (even after Add said false), the next Add says
    false exactly when k of them matched. *)
Theorem C42_full :
  forall q k ok names n, 0 <= k -> decides_query q ok ->
  exists s s' go s'', search_new q k = Ok s /\ search_adds names s = Ok s' /\ search_add n s' = Ok (go, s'') /\
  (go = false <-> k <= Z.of_nat (length (filter ok names))).
Proof.
  intros q k ok names n Hk Hok. unfold search_new. replace (k <? 0) with false by lia.
  set (s := Search (map new_spec (fields q)) k []).
  destruct (search_adds_ok names s (good_new _)) as (s' & E1 & E2 & E3 & E4); [cbn; lia|].
  cbn [s se_matched se_cap se_specs app length] in *. rewrite Nat.sub_0_r in E4.
  assert (Ef : filter (smatch (map new_spec (fields q))) names = filter ok names).
  { apply filter_ext. intros x. specialize (Hok _ (proj1 (fields_worded q _) eq_refl) x).
    assert (S : smatch (map new_spec (fields q)) x = true <-> forall w, In w (fields q) -> spec_match (new_spec w) x = Ok true).
    { unfold smatch. rewrite forallb_forall. split.
      - intros H w Hw. specialize (H (new_spec w) (in_map _ _ _ Hw)). destruct (spec_match (new_spec w) x) as [[]| | |]; congruence.
      - intros H sp Hsp. apply in_map_iff in Hsp. destruct Hsp as (w & <- & Hw). rewrite (H w Hw). reflexivity. }
    destruct (smatch _ x), (ok x); try reflexivity; exfalso.
    - assert (false = true) by (apply Hok, S; reflexivity). discriminate.
    - assert (false = true) by (apply S, Hok; reflexivity). discriminate. }
  rewrite Ef in E4.
  assert (Hadd : exists go s'', search_add n s' = Ok (go, s'') /\ (go = false <-> len (se_matched s') = se_cap s')).
  { unfold search_add. destruct (Z.eqb_spec (len (se_matched s')) (se_cap s')) as [X|X].
    - exists false, s'. split; [reflexivity|]. split; auto.
    - rewrite specs_match_ok by (rewrite E2; apply good_new). cbn [bind].
      destruct (smatch (se_specs s') n); eexists; eexists; (split; [reflexivity|]); (split; [discriminate|contradiction]). }
  destruct Hadd as (go & s'' & A1 & A2). exists s, s', go, s''. split; [reflexivity|]. split; [exact E1|]. split; [exact A1|].
  rewrite A2, E3, E4. unfold len. rewrite firstn_length. lia.
Qed.
(** the words of a query: printable words separated by a space *)
Theorem C42_words :
  forall ws, Forall (fun w => w <> [] /\ Forall (fun c => 33 <= c <= 126) w) ws -> fields (spaced ws) = ws.
Proof. exact fields_words. Qed.
(** "ab<U+0085> <U+3000>c" *)
Example C42_words_example : worded [97; 98; 0xC2; 0x85; 32; 0xE3; 0x80; 0x80; 99] [[97; 98]; [99]].
Proof. apply C42_query_words. reflexivity. Qed.
(** a negative capacity panics (the server takes it from the request) *)
Theorem C42_negative_capacity : forall q k, k < 0 -> search_new q k = Panic.
Proof. intros q k H. unfold search_new. replace (k <? 0) with true by lia. reflexivity. Qed.
(** "ab c" over four names, capacity 2 *)
Example C42_example :
  (exists ok, decides_query [97; 98; 32; 99] ok) /\
  exists s, search_new [97; 98; 32; 99] 2 = Ok s /\
  search_run [[97; 98; 99]; [97; 98]; [99; 46; 65; 98]; [97; 98; 99; 100]] s =
    Ok (false, Search (se_specs s) 2 [[97; 98; 99]; [99; 46; 65; 98]]).
Proof.
  split.
  - exists (fun n => forallb (fun w => match spec_match (new_spec w) n with Ok true => true | _ => false end) (fields [97; 98; 32; 99])).
    intros ws W n. apply fields_worded in W. subst ws. rewrite forallb_forall. split; intros H w Hw; specialize (H w Hw).
    + destruct (spec_match (new_spec w) n) as [[]| | |]; congruence.
    + rewrite H. reflexivity.
  - eexists. split; [reflexivity|]. vm_compute. reflexivity.
Qed.

Print Assumptions C40_decides.
Print Assumptions C40_glob_partial.
Print Assumptions C40_sound.
Print Assumptions C40_final_star.
Print Assumptions C41_spec.
Print Assumptions C41_plain_words.
Print Assumptions C42_query_words.
Print Assumptions C42_search.
Print Assumptions C42_full.
Print Assumptions C42_stops.
