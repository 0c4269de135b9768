(** Property C50 (directories of the embedded assets) and C59 (opening assets). *)
From Coq Require Import ZArith List Lia Bool Permutation Relation_Operators.
From Verif Require Import Base Maps Query Tgzfs TgzfsSpec.
Import ListNotations.
Open Scope Z_scope.

(** all the entries a sequence of calls returned *)
Fixpoint listed {A} (l : list (rd A)) : list A :=
  match l with
  | [] => []
  | Entries e :: r => e ++ listed r
  | EOF :: r => listed r
  end.
Definition positive (counts : list Z) : Prop := forall c, In c counts -> 1 <= c.

(** what C50 asks of one directory and one sequence of counts: no panic, and
    when the end of file is reported everything was listed exactly once *)
Definition lists_once {A} (l : list A) (counts : list Z) : Prop :=
  exists rs rest, readdirs counts l = Ok (rs, rest) /\ (In EOF rs -> Permutation (listed rs) l).

(** * C50 is false: with three entries read two at a time, the first entry is
    listed twice and the last never *)
Theorem C50_refuted : ~ (forall A (l : list A) counts, positive counts -> lists_once l counts).
Proof.
  intros H. destruct (H Z [1;2;3] [2;2;2]) as (rs & rest & E & P).
  - intros c Hc. cbn in Hc. lia.
  - cbn in E. injection E as <- <-. specialize (P ltac:(cbn; tauto)). cbn in P.
    apply Permutation_sym in P. assert (In 3 [1;2;1]) by (eapply Permutation_in; [exact P|cbn; tauto]). cbn in H0. lia.
Qed.
Print Assumptions C50_refuted.

Lemma readdirs_nil {A} counts : @readdirs A counts [] = Ok (repeat EOF (length counts), []).
Proof. induction counts as [|c r IH]; cbn; [reflexivity|]. unfold readdir. cbn. rewrite IH. reflexivity. Qed.
Lemma listed_repeat {A} n : @listed A (repeat EOF n) = [].
Proof. induction n; cbn; auto. Qed.

Lemma readdir_pos {A} c (l : list A) : 1 <= c -> l <> [] ->
  exists a b, readdir c l = Ok (Entries a, b) /\ a = firstn (Z.to_nat c) l /\ (exists t, l = b ++ t /\ length t = length a) /\ a <> [].
Proof.
  intros Hc Hl. unfold readdir. assert (0 < len l) by (destruct l; [congruence|unfold len; cbn; lia]).
  destruct (Z.eqb_spec (len l) 0); [lia|]. cbn zeta.
  assert (HN : firstn (Z.to_nat c) l <> []).
  { destruct l; [congruence|]. destruct (Z.to_nat c) eqn:E; [lia|]. discriminate. }
  destruct (Z.ltb_spec (len l) c).
  - destruct (Z.ltb_spec (len l) 0); [lia|]. do 2 eexists. split; [reflexivity|].
    assert (F : firstn (Z.to_nat (len l)) l = firstn (Z.to_nat c) l).
    { rewrite !firstn_all2; [reflexivity| |]; unfold len in *; lia. }
    rewrite F. split; [reflexivity|]. split; [|exact HN]. exists l. rewrite Z.sub_diag. cbn. split; [reflexivity|].
    rewrite firstn_all2; [reflexivity|unfold len in *; lia].
  - destruct (Z.ltb_spec c 0); [lia|]. do 2 eexists. split; [reflexivity|]. split; [reflexivity|]. split; [|exact HN].
    exists (skipn (Z.to_nat (len l - c)) l). split; [now rewrite firstn_skipn|]. rewrite skipn_length, firstn_length. unfold len in *. lia.
Qed.

(** what does hold for any positive counts: no panic; every call before the end
    gives at least one entry, all of them entries of the directory; the end of
    file is reached, and then as many entries were listed as the directory has *)
Theorem C50_number_partial : forall A (l : list A) counts, positive counts ->
  exists rs rest, readdirs counts l = Ok (rs, rest) /\
  length rs = length counts /\
  (forall es, In (Entries es) rs -> es <> []) /\
  (forall x, In x (listed rs) -> In x l) /\
  len (listed rs) + len rest = len l /\
  (In EOF rs -> rest = []) /\
  (len l < len counts -> In EOF rs).
Proof.
  intros A l counts. revert l. induction counts as [|c r IH]; intros l Hp; cbn [readdirs].
  - do 2 eexists. split; [reflexivity|]. cbn [listed]. split; [reflexivity|]. split; [intros ? []|]. split; [intros ? []|]. split; [reflexivity|]. split; [intros []|].
    intros H. pose proof (len_nonneg l). rewrite len_nil in H. lia.
  - assert (Hr : positive r) by (intros x Hx; apply Hp; now right).
    destruct l as [|a0 l0] eqn:El.
    + unfold readdir. cbn [len length]. cbn. rewrite readdirs_nil. cbn [bind fst snd]. do 2 eexists. split; [reflexivity|].
      cbn [listed]. rewrite listed_repeat. repeat split; auto.
      * cbn. now rewrite repeat_length.
      * intros es [H|H]; [discriminate|]. apply repeat_spec in H. discriminate.
      * left. reflexivity.
    + rewrite <- El. assert (Hl : l <> []) by (rewrite El; discriminate). clear El.
      destruct (readdir_pos c l) as (a & b & E & Ea & (t & Et & Lt) & Na); [apply Hp; now left|exact Hl|].
      rewrite E. cbn [bind fst snd]. destruct (IH b Hr) as (rs & rest & E2 & L & N & I & T & F & G). rewrite E2. cbn [bind fst snd].
      do 2 eexists. split; [reflexivity|]. cbn [listed length]. repeat split.
      * now rewrite L.
      * intros es [H|H]; [injection H as <-; exact Na|eauto].
      * intros x Hx. apply in_app_or in Hx as [Hx|Hx].
        -- rewrite Ea in Hx. rewrite <- (firstn_skipn (Z.to_nat c) l). apply in_or_app. now left.
        -- rewrite Et. apply in_or_app. left. now apply I.
      * rewrite len_app. rewrite Et. rewrite len_app. unfold len in *. lia.
      * intros [H|H]; [discriminate|auto].
      * intros H. right. apply G. assert (a <> []) by exact Na. destruct a; [congruence|]. rewrite Et in H. rewrite len_app, len_cons in H.
        unfold len in *. cbn [length] in *. lia.
Qed.
Print Assumptions C50_number_partial.

(** exactly when the listing is right, for a directory without repetitions: a
    non-empty directory must be read whole by the first call *)
Theorem C50_first_call_partial : forall A (l : list A) c counts, NoDup l -> l <> [] -> positive (c :: counts) -> len l < len counts ->
  (lists_once l (c :: counts) <-> len l <= c).
Proof.
  intros A l c counts Hd Hl Hp Hlen.
  destruct (readdir_pos c l) as (a & b & E & Ea & (t & Et & Lt) & Na); [apply Hp; now left|exact Hl|].
  assert (Hr : positive counts) by (intros x Hx; apply Hp; now right).
  split.
  - intros (rs & rest & E2 & P). destruct (Z.le_gt_cases (len l) c) as [|Hc]; [assumption|exfalso].
    cbn [readdirs] in E2. rewrite E in E2. cbn [bind fst snd] in E2.
    destruct l as [|x l']; [congruence|]. assert (1 <= c) by (apply Hp; now left).
    assert (Hb : exists b', b = x :: b').
    { assert (La : len a = c) by (rewrite Ea; unfold len; rewrite firstn_length; unfold len in Hc; lia).
      assert (0 < len b) by (rewrite Et, len_app in Hc; unfold len in *; lia).
      destruct b as [|y b']; [unfold len in *; cbn in *; lia|]. cbn in Et. injection Et as <- _. eauto. }
    destruct Hb as [b' ->]. assert (Ha : exists a', a = x :: a').
    { rewrite Ea. destruct (Z.to_nat c) eqn:En; [lia|]. cbn. eauto. }
    destruct Ha as [a' Ha].
    destruct counts as [|c2 counts]; [unfold len in Hlen; cbn in Hlen; lia|]. cbn [readdirs] in E2.
    assert (1 <= c2) by (apply Hr; now left).
    destruct (readdir_pos c2 (x :: b')) as (a2 & b2 & E3 & Ea2 & (t2 & Et2 & Lt2) & Na2); [assumption|discriminate|].
    rewrite E3 in E2. cbn [bind fst snd] in E2.
    destruct (readdirs counts b2) as [[rs2 rest2]| | |] eqn:E4; try discriminate. cbn [bind fst snd] in E2.
    injection E2 as <- <-.
    destruct (C50_number_partial A b2 counts) as (rs3 & rest3 & E5 & _ & _ & _ & _ & _ & G).
    { intros y Hy. apply Hr. now right. }
    rewrite E4 in E5. injection E5 as <- <-.
    assert (HE : In EOF rs2).
    { apply G. assert (L3 : len (x :: l') = len b2 + len t2 + len t) by (rewrite Et, Et2, !len_app; lia).
      assert (0 < len t2) by (destruct a2; [congruence|]; unfold len; cbn in Lt2; lia).
      pose proof (len_nonneg t). rewrite L3 in Hlen. rewrite len_cons in Hlen.
      assert (0 < len t) by (rewrite Ha in Lt; unfold len; cbn in Lt; lia). lia. }
    specialize (P ltac:(right; right; exact HE)). cbn [listed] in P. rewrite Ha in P.
    assert (Ha2 : exists a3, a2 = x :: a3). { rewrite Ea2. destruct (Z.to_nat c2) eqn:En; [lia|]. cbn. eauto. }
    destruct Ha2 as [a3 ->]. apply Permutation_sym, (Permutation_NoDup) in P; [|assumption].
    cbn [app] in P. inversion P as [|? ? Hn _]; subst. apply Hn. apply in_or_app. right. left. reflexivity.
  - intros Hc. cbn [lists_once readdirs]. unfold lists_once. cbn [readdirs]. rewrite E. cbn [bind fst snd].
    assert (Ea' : a = l) by (rewrite Ea; apply firstn_all2; unfold len in Hc; lia).
    assert (b = []). { apply len_0_nil. assert (len l = len b + len t) by (rewrite Et at 1; apply len_app). rewrite Ea' in Lt. unfold len in *. lia. }
    subst b. rewrite readdirs_nil. cbn [bind fst snd]. do 2 eexists. split; [reflexivity|]. intros _. cbn [listed]. rewrite listed_repeat, app_nil_r, Ea'. reflexivity.
Qed.
Print Assumptions C50_first_call_partial.

Example C50_ex : lists_once [1;2;3] [5;1;1;1;1] /\ ~ lists_once [1;2;3] [1;2;1;1;1] /\ readdirs [1;1;1;1] [1;2;3] = Ok ([Entries [1]; Entries [1]; Entries [1]; EOF], []).
Proof.
  assert (D : NoDup [1;2;3]) by (repeat constructor; cbn; lia).
  split; [|split].
  - apply C50_first_call_partial; [exact D|discriminate| |cbn; lia|cbn; lia]. intros c Hc; cbn in Hc; lia.
  - intros H. apply C50_first_call_partial in H; [cbn in H; lia|exact D|discriminate| |cbn; lia]. intros c Hc; cbn in Hc; lia.
  - reflexivity.
Qed.

(** outside the property: the conventional "everything" count -1 (used by
    http.FileServer) panics on any non-empty directory *)
Theorem C50_all_at_once_panics : forall A (l : list A), l <> [] -> readdir (-1) l = Panic.
Proof.
  intros A l H. unfold readdir. destruct (Z.eqb_spec (len l) 0) as [E|E]; [apply len_0_nil in E; congruence|].
  pose proof (len_nonneg l). destruct (Z.ltb_spec (len l) (-1)); [lia|reflexivity].
Qed.
Print Assumptions C50_all_at_once_panics.

(** * C59: opening an asset *)
(** [e] is the last entry whose cleaned name is [parts] *)
Definition last_entry (l : list tentry) (parts : list (list Z)) (e : tentry) : Prop :=
  exists l1 l2, l = l1 ++ e :: l2 /\ split_path (t_name e) = parts /\ forall e', In e' l2 -> split_path (t_name e') <> parts.
(** no entry is named [parts] or something below it *)
Definition nothing_at (l : list tentry) (parts : list (list Z)) : Prop :=
  forall e q, In e l -> split_path (t_name e) <> parts ++ q.


(** the contents (info and data) of the node at a path *)
Definition contents (f : option file) : option (option info * list Z) :=
  match f with Some x => Some (f_info x, f_data x) | None => None end.
(** is [p] a prefix of [q]? *)
Definition prefix (p q : list (list Z)) : Prop := exists r, q = p ++ r.
Lemma prefix_dec p q : {prefix p q} + {~ prefix p q}.
Proof.
  revert q. induction p as [|a p IH]; intros q; [left; exists q; reflexivity|].
  destruct q as [|b q]; [right; intros [r H]; discriminate|].
  destruct (bytes_eq_dec a b) as [->|N]; [|right; intros [r H]; injection H as <- _; congruence].
  destruct (IH q) as [H|H]; [left; destruct H as [r ->]; exists r; reflexivity|right; intros [r E]; apply H; exists r; now injection E].
Qed.

Lemma find_update_contents g i0 d0 : (forall x, f_info (g x) = Some i0 /\ f_data (g x) = d0 /\ f_children (g x) = f_children x) ->
  forall q p f, contents (find p (update q g f)) =
   if list_eq_dec bytes_eq_dec p q then Some (Some i0, d0)
   else match contents (find p f) with
        | Some c => Some c
        | None => if prefix_dec p q then Some (None, []) else None
        end.
Proof.
  intros Hg. induction q as [|a q IH]; intros p f; cbn [update].
  - destruct (list_eq_dec bytes_eq_dec p []) as [->|N].
    + cbn. destruct (Hg f) as (A & B & C). now rewrite A, B.
    + destruct p as [|b p]; [congruence|]. cbn [find]. destruct (Hg f) as (_ & _ & C). rewrite C.
      destruct (mget beqb b (f_children f)) as [c|]; [|destruct (prefix_dec (b :: p) []) as [[r H]|]; [discriminate|reflexivity]].
      destruct (contents (find p c)); [reflexivity|]. destruct (prefix_dec (b :: p) []) as [[r H]|]; [discriminate|reflexivity].
  - destruct f as [i d ch]. destruct p as [|b p].
    + cbn [find contents f_info f_data]. destruct (list_eq_dec bytes_eq_dec [] (a :: q)); [discriminate|]. reflexivity.
    + cbn [find f_children]. rewrite (mget_put _ eqb_ok_bytes).
      destruct (beqb a b) eqn:Eab.
      * apply beqb_eq in Eab. subst b. rewrite IH. clear IH.
        destruct (list_eq_dec bytes_eq_dec p q) as [->|N].
        -- destruct (list_eq_dec bytes_eq_dec (a :: q) (a :: q)); [reflexivity|congruence].
        -- destruct (list_eq_dec bytes_eq_dec (a :: p) (a :: q)); [congruence|].
           destruct (mget beqb a ch) as [c|]; [|].
           ++ destruct (contents (find p c)); [reflexivity|].
              destruct (prefix_dec p q) as [P|P], (prefix_dec (a :: p) (a :: q)) as [P'|P']; try reflexivity; exfalso.
              ** apply P'. destruct P as [r ->]. exists r. reflexivity.
              ** apply P. destruct P' as [r E]. exists r. now injection E.
           ++ destruct p as [|b p].
              ** cbn [find new_file contents f_info f_data]. destruct (prefix_dec [a] (a :: q)) as [P|P]; [reflexivity|].
                 exfalso. apply P. exists q. reflexivity.
              ** cbn [find new_file f_children mget contents]. 
                 destruct (prefix_dec (b :: p) q) as [P|P], (prefix_dec (a :: b :: p) (a :: q)) as [P'|P']; try reflexivity; exfalso.
                 { apply P'. destruct P as [r ->]. exists r. reflexivity. }
                 { apply P. destruct P' as [r E]. exists r. now injection E. }
      * destruct (list_eq_dec bytes_eq_dec (b :: p) (a :: q)) as [H|]; [injection H as -> _; rewrite beqb_refl in Eab; discriminate|].
        destruct (mget beqb b ch) as [c|]; [destruct (contents (find p c)); [reflexivity|]|cbn [contents]];
          (destruct (prefix_dec (b :: p) (a :: q)) as [[r H]|]; [injection H as -> _; rewrite beqb_refl in Eab; discriminate|reflexivity]).
Qed.


Lemma built_contents ri : forall l p,
  (forall e, last_entry l p e -> contents (find p (root (fs_new ri l))) = Some (Some (t_info e), t_data e)) /\
  ((forall e, In e l -> split_path (t_name e) <> p) -> p <> [] ->
    (nothing_at l p -> find p (root (fs_new ri l)) = None) /\
    (~ nothing_at l p -> contents (find p (root (fs_new ri l))) = Some (None, []))) /\
  ((forall e, In e l -> split_path (t_name e) <> p) -> p = [] -> contents (find p (root (fs_new ri l))) = Some (Some ri, [])).
Proof.
  induction l as [|e l IH] using rev_ind; intros p.
  - split; [|split].
    + intros e (l1 & l2 & E & _). destruct l1; discriminate.
    + intros _ Hp. destruct p as [|a p]; [congruence|]. cbn. split; [reflexivity|]. intros H. exfalso. apply H. intros e q [].
    + intros _ ->. reflexivity.
  - assert (U : contents (find p (root (fs_new ri (l ++ [e])))) =
      if list_eq_dec bytes_eq_dec p (split_path (t_name e)) then Some (Some (t_info e), t_data e)
      else match contents (find p (root (fs_new ri l))) with Some c => Some c
           | None => if prefix_dec p (split_path (t_name e)) then Some (None, []) else None end).
    { unfold fs_new. rewrite fold_left_app. cbn [fold_left add_entry root]. apply find_update_contents. intros x. auto. }
    destruct (IH p) as (A & B & C).
    assert (Lt : forall x, last_entry (l ++ [e]) p x -> (x = e /\ split_path (t_name e) = p) \/ (last_entry l p x /\ split_path (t_name e) <> p)).
    { intros x (l1 & l2 & E & E2 & N). destruct l2 as [|y l2] using rev_ind.
      - apply app_inj_tail in E as [-> ->]. left. auto.
      - clear IHl2. rewrite app_comm_cons, app_assoc in E. apply app_inj_tail in E as [-> ->]. right. split.
        + exists l1, l2. split; [reflexivity|]. split; [exact E2|]. intros e' He. apply N. apply in_or_app. now left.
        + apply N. apply in_or_app. right. now left. }
    split; [|split].
    + intros x Hx. rewrite U. apply Lt in Hx as [[-> E]|[Hx N]].
      * destruct (list_eq_dec bytes_eq_dec p (split_path (t_name e))); congruence.
      * destruct (list_eq_dec bytes_eq_dec p (split_path (t_name e))); [congruence|]. now rewrite (A x Hx).
    + intros Hn Hp. assert (Hn' : forall e, In e l -> split_path (t_name e) <> p) by (intros x Hx; apply Hn; apply in_or_app; now left).
      assert (He : split_path (t_name e) <> p) by (apply Hn; apply in_or_app; right; now left).
      destruct (B Hn' Hp) as [B1 B2]. destruct (list_eq_dec bytes_eq_dec p (split_path (t_name e))); [congruence|]. split.
      * intros N. assert (N' : nothing_at l p) by (intros x q Hx; apply N; apply in_or_app; now left).
        rewrite (B1 N') in U. cbn [contents] in U. destruct (prefix_dec p (split_path (t_name e))) as [[r P]|P].
        -- exfalso. eapply (N e r); [apply in_or_app; right; now left|exact P].
        -- destruct (find p (root (fs_new ri (l ++ [e])))); [discriminate|reflexivity].
      * intros N. rewrite U. destruct (contents (find p (root (fs_new ri l)))) as [c|] eqn:Ec.
        -- (* something was there already *)
           destruct (find p (root (fs_new ri l))) eqn:Ef; [|discriminate].
           apply B2. intros N'. specialize (B1 N'). congruence.
        -- destruct (prefix_dec p (split_path (t_name e))) as [P|P]; [reflexivity|]. exfalso.
           apply N. intros x q Hx E. apply in_app_or in Hx as [Hx|[<-|[]]]; [|apply P; exists q; exact E].
           assert (M : ~ nothing_at l p) by (intros M; eapply M; eauto). apply B2 in M. congruence.
    + intros Hn ->. assert (Hn' : forall e, In e l -> split_path (t_name e) <> []) by (intros x Hx; apply Hn; apply in_or_app; now left).
      rewrite U. destruct (list_eq_dec bytes_eq_dec [] (split_path (t_name e))) as [E|]; [exfalso; apply (Hn e); [apply in_or_app; right; now left|congruence]|].
      now rewrite (C Hn' eq_refl).
Qed.

Lemma split_index : split_path s_index = [s_index] /\ split_path (dot :: slash :: s_index) = [s_index].
Proof. split; reflexivity. Qed.

Lemma has_def_spec ri l : has_def (fs_new ri l) = true <-> exists e, In e l /\ (t_name e = s_index \/ t_name e = dot :: slash :: s_index).
Proof.
  induction l as [|e l IH] using rev_ind.
  - cbn. split; [discriminate|]. intros (e & [] & _).
  - unfold fs_new in *. rewrite fold_left_app. cbn [fold_left add_entry has_def]. rewrite !orb_true_iff, IH, !beqb_eq. split.
    + intros [[(x & Hx & E)|E]|E].
      * exists x. split; [apply in_or_app; now left|exact E].
      * exists e. split; [apply in_or_app; right; now left|auto].
      * exists e. split; [apply in_or_app; right; now left|auto].
    + intros (x & Hx & E). apply in_app_or in Hx as [Hx|[<-|[]]]; [left; left; eauto|]. destruct E; auto.
Qed.

(** The parts under which a path is kept and looked up are those between its
    slashes, simplified as far as possible ("." if nothing is left of a path that
    does not start with a slash). *)
Definition good_acc (rooted : bool) (acc : list (list Z)) : Prop := simplest (rooted = true) (rev acc).
Lemma clean_ok rooted l : forall acc, good_acc rooted acc ->
  simplified (rooted = true) (rev acc ++ l) (clean_comps rooted acc l) /\ simplest (rooted = true) (clean_comps rooted acc l).
Proof.
  induction l as [|c l IH]; intros acc G; cbn [clean_comps].
  - rewrite app_nil_r. split; [apply rt_refl|exact G].
  - assert (K : forall acc', good_acc rooted acc' -> simplified (rooted = true) (rev acc ++ c :: l) (rev acc' ++ l) ->
      simplified (rooted = true) (rev acc ++ c :: l) (clean_comps rooted acc' l) /\ simplest (rooted = true) (clean_comps rooted acc' l)).
    { intros acc' G' S. destruct (IH acc' G') as [A B]. split; [|exact B]. eapply rt_trans; [exact S|exact A]. }
    destruct (beqb c [] || beqb c [dot]) eqn:E0.
    + apply orb_true_iff in E0. apply (K acc G), rt_step. destruct E0 as [E0|E0]; apply beqb_eq in E0; subst c; [apply sp_empty|apply sp_dot].
    + apply orb_false_iff in E0 as [E0 E1]. assert (N0 : c <> []) by (intros ->; now rewrite beqb_refl in E0). assert (N1 : c <> [dot]) by (intros ->; now rewrite beqb_refl in E1).
      destruct (beqb c [dot; dot]) eqn:E2.
      * apply beqb_eq in E2. subst c. destruct acc as [|a acc'].
        -- destruct rooted.
           ++ apply (K [] G), rt_step. cbn [rev app]. apply sp_root. reflexivity.
           ++ apply (K [[dot; dot]]); [|apply rt_refl]. exists [[dot; dot]], []. repeat split; try (intros; contradiction); try discriminate. intros x [<-|[]]; reflexivity.
        -- destruct (beqb a [dot; dot]) eqn:Ea.
           ++ apply beqb_eq in Ea. subst a. apply (K ([dot; dot] :: [dot; dot] :: acc')).
              ** destruct G as (ups & names & Eq & U & R & Nm). cbn [rev] in Eq.
                 assert (names = []).
                 { destruct names as [|n names _] using rev_ind; [reflexivity|exfalso]. rewrite app_assoc in Eq. apply app_inj_tail in Eq as [_ <-].
                   destruct (Nm [dot; dot]) as (_ & _ & X); [apply in_or_app; right; now left|now apply X]. }
                 subst names. rewrite app_nil_r in Eq. exists (ups ++ [[dot; dot]]), []. split; [cbn [rev]; rewrite Eq, app_nil_r; reflexivity|].
                 split; [intros x Hx; apply in_app_or in Hx as [Hx|[<-|[]]]; [now apply U|reflexivity]|]. split; [|intros ? []].
                 intros Hr. specialize (R Hr). subst ups. destruct (rev acc'); discriminate.
              ** cbn [rev]. rewrite <- !app_assoc. cbn [app]. apply rt_refl.
           ++ apply (K acc').
              ** destruct G as (ups & names & Eq & U & R & Nm). cbn [rev] in Eq. destruct names as [|n names _] using rev_ind.
                 { rewrite app_nil_r in Eq. exfalso. assert (In a ups) by (rewrite <- Eq; apply in_or_app; right; now left). rewrite (U a H) in Ea. now rewrite beqb_refl in Ea. }
                 rewrite app_assoc in Eq. apply app_inj_tail in Eq as [Eq _]. exists ups, names. split; [exact Eq|]. split; [exact U|]. split; [exact R|].
                 intros x Hx. apply Nm, in_or_app. now left.
              ** apply rt_step. cbn [rev]. rewrite <- app_assoc. cbn [app].
                 destruct G as (ups & names & Eq & U & R & Nm). cbn [rev] in Eq. destruct names as [|n names _] using rev_ind.
                 { rewrite app_nil_r in Eq. exfalso. assert (In a ups) by (rewrite <- Eq; apply in_or_app; right; now left). rewrite (U a H) in Ea. now rewrite beqb_refl in Ea. }
                 rewrite app_assoc in Eq. apply app_inj_tail in Eq as [_ Eq]. subst n. destruct (Nm a) as (A1 & A2 & A3); [apply in_or_app; right; now left|].
                 now apply sp_up.
      * assert (N2 : c <> [dot; dot]) by (intros ->; now rewrite beqb_refl in E2).
        apply (K (c :: acc)).
        -- destruct G as (ups & names & Eq & U & R & Nm). exists ups, (names ++ [c]). split; [cbn [rev]; now rewrite Eq, app_assoc|]. split; [exact U|]. split; [exact R|].
           intros x Hx. apply in_app_or in Hx as [Hx|[<-|[]]]; [now apply Nm|auto].
        -- cbn [rev]. rewrite <- app_assoc. apply rt_refl.
Qed.
Lemma split_parts_of p : parts_of p (split_on slash [] p).
Proof.
  assert (K : forall p cur, ~ In slash cur -> split_on slash cur p <> [] /\ (forall c, In c (split_on slash cur p) -> ~ In slash c) /\ slashed (split_on slash cur p) = rev cur ++ p).
  { clear p. induction p as [|c p IH]; intros cur Hc; cbn [split_on].
    - split; [discriminate|]. split; [intros x [<-|[]]; now rewrite <- in_rev|]. cbn [slashed]. now rewrite app_nil_r.
    - destruct (Z.eqb_spec c slash) as [->|N].
      + destruct (IH [] ltac:(intros [])) as (A & B & C). split; [discriminate|]. split.
        * intros x [<-|Hx]; [now rewrite <- in_rev|now apply B].
        * destruct (split_on slash [] p) as [|d r]; [congruence|]. change (rev cur ++ 47 :: slashed (d :: r) = rev cur ++ slash :: p). rewrite C. reflexivity.
      + destruct (IH (c :: cur)) as (A & B & C); [intros [->|X]; [now apply N|contradiction]|]. split; [exact A|]. split; [exact B|]. rewrite C. cbn [rev]. now rewrite <- app_assoc. }
  destruct (K p [] ltac:(intros [])) as (A & B & C). now split.
Qed.
Theorem C59_path : forall p,
  exists l s, parts_of p l /\ simplified (rooted_path p) l s /\ simplest (rooted_path p) s /\
  (s <> [] \/ rooted_path p -> split_path p = s) /\
  (s = [] -> ~ rooted_path p -> split_path p = [[46]]).
Proof.
  intros p. unfold split_path. set (rooted := match p with c :: _ => c =? slash | [] => false end).
  assert (R : rooted = true <-> rooted_path p).
  { unfold rooted, rooted_path. destruct p as [|c p]; [split; [discriminate|intros [q Q]; discriminate]|]. rewrite Z.eqb_eq. split; [intros ->; eauto|intros [q Q]; now injection Q]. }
  destruct (clean_ok rooted (split_on slash [] p) []) as [A B].
  { exists [], []. repeat split; intros; contradiction. }
  exists (split_on slash [] p), (clean_comps rooted [] (split_on slash [] p)).
  split; [apply split_parts_of|]. split.
  { clear B. unfold simplified in *. cbn [rev app] in A. remember (split_on slash [] p) as x eqn:X. clear X. induction A as [x y H| |x y z _ I1 _ I2]; [apply rt_step|apply rt_refl|eapply rt_trans; eassumption].
    inversion H; subst; try (now constructor). apply sp_root. now apply R. }
  split.
  { destruct B as (ups & names & E & U & V & N). exists ups, names. repeat split; try assumption; try now apply N. intros Hr. apply V, R, Hr. }
  destruct (clean_comps rooted [] (split_on slash [] p)) as [|c l]; (split; [|intros E Hr]).
  - intros [X|Hr]; [congruence|]. apply R in Hr. now rewrite Hr.
  - destruct rooted; [exfalso; apply Hr, R; reflexivity|reflexivity].
  - reflexivity.
  - discriminate.
Qed.
Print Assumptions C59_path.
(** "/a/./..//b/" is "b", "x/../../c" is "../c", "/../d" is "d", "." is "." *)
Example C59_path_example : split_path [47;97;47;46;47;46;46;47;47;98;47] = [[98]] /\
  split_path [120;47;46;46;47;46;46;47;99] = [[46;46];[99]] /\ split_path [47;46;46;47;100] = [[100]] /\ split_path [46] = [[46]].
Proof. repeat split. Qed.

(** opening a path gives the contents of the last entry of that (cleaned) name;
    if the path is not in the tarball at all, it gives the contents of the last
    index.html when there is one, and "does not exist" otherwise *)
Theorem C59_open : forall ri l name,
  (forall e, last_entry l (split_path name) e -> contents (fs_open (fs_new ri l) name) = Some (Some (t_info e), t_data e)) /\
  (nothing_at l (split_path name) -> split_path name <> [] ->
     (forall e, (exists e', In e' l /\ (t_name e' = s_index \/ t_name e' = dot :: slash :: s_index)) -> last_entry l [s_index] e ->
        contents (fs_open (fs_new ri l) name) = Some (Some (t_info e), t_data e)) /\
     ((forall e, In e l -> t_name e <> s_index /\ t_name e <> dot :: slash :: s_index) -> fs_open (fs_new ri l) name = None)).
Proof.
  intros ri l name. destruct (built_contents ri l (split_path name)) as (A & B & C). unfold fs_open. split.
  - intros e He. specialize (A e He). destruct (find (split_path name) (root (fs_new ri l))); [exact A|discriminate].
  - intros Hn Hp. assert (Hne : forall e, In e l -> split_path (t_name e) <> split_path name).
    { intros e He E. apply (Hn e [] He). now rewrite app_nil_r. }
    destruct (B Hne Hp) as [B1 _]. rewrite (B1 Hn). split.
    + intros e Hex Hl. apply (has_def_spec ri l) in Hex. rewrite Hex. destruct (built_contents ri l [s_index]) as (A' & _). apply A'. exact Hl.
    + intros Hno. destruct (has_def (fs_new ri l)) eqn:E; [|reflexivity]. apply has_def_spec in E as (e & He & [E|E]); destruct (Hno e He); contradiction.
Qed.
Print Assumptions C59_open.

(** directories that only appear inside other names have no FileInfo (Stat on
    their handle returns nil, on which net/http panics) *)
Theorem C59_implicit_directory : forall ri l name,
  (forall e, In e l -> split_path (t_name e) <> split_path name) -> split_path name <> [] ->
  (exists e q, In e l /\ split_path (t_name e) = split_path name ++ q) ->
  contents (fs_open (fs_new ri l) name) = Some (None, []).
Proof.
  intros ri l name Hn Hp (e & q & He & E). destruct (built_contents ri l (split_path name)) as (_ & B & _). destruct (B Hn Hp) as [_ B2].
  unfold fs_open. assert (X : ~ nothing_at l (split_path name)) by (intros X; eapply X; eauto).
  specialize (B2 X). destruct (find (split_path name) (root (fs_new ri l))); [exact B2|discriminate].
Qed.
Print Assumptions C59_implicit_directory.

Definition ex_tar : list tentry :=
  [ {| t_name := [46;47]; t_info := 1; t_data := [] |};
    {| t_name := 46 :: 47 :: s_index; t_info := 2; t_data := [1;2] |};
    {| t_name := [97;47;98]; t_info := 3; t_data := [7] |} ].
Example C59_ex : contents (fs_open (fs_new 0 ex_tar) [47;97;47;47;46;47;98]) = Some (Some 3, [7]) /\
  contents (fs_open (fs_new 0 ex_tar) [47;120]) = Some (Some 2, [1;2]) /\
  contents (fs_open (fs_new 0 ex_tar) [47;97]) = Some (None, []) /\ contents (fs_open (fs_new 0 ex_tar) [47]) = Some (Some 0, []) /\
  last_entry ex_tar (split_path [47;97;47;98]) {| t_name := [97;47;98]; t_info := 3; t_data := [7] |} /\ nothing_at ex_tar (split_path [47;120]).
Proof.
  split; [reflexivity|]. split; [reflexivity|]. split; [reflexivity|]. split; [reflexivity|]. split.
  - exists (firstn 2 ex_tar), []. split; [reflexivity|]. split; [reflexivity|]. intros ? [].
  - intros e q [<-|[<-|[<-|[]]]]; vm_compute; intros H; discriminate H.
Qed.
