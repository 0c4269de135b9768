(** Properties C44 and C54: the graphite listener. *)
From Coq Require Import ZArith List Lia Bool.
From Verif Require Import Base Maps Pb PbRecord Float Agg Writer WriterSpec WriterProofs Query QuerySpec QueryProofs Props_Data Graphite GraphiteSpec.
Import ListNotations.
Open Scope Z_scope.

Lemma split_app d a : ~ In d a -> forall cur s, split_on d cur (a ++ d :: s) = (rev cur ++ a) :: split_on d [] s.
Proof.
  induction a as [|c a IH]; intros Ha cur s; cbn [app split_on].
  - rewrite Z.eqb_refl, app_nil_r. reflexivity.
  - destruct (Z.eqb_spec c d) as [->|]; [exfalso; apply Ha; now left|]. rewrite IH by (intros X; apply Ha; now right).
    cbn [rev]. rewrite <- app_assoc. reflexivity.
Qed.
Lemma split_none d a : ~ In d a -> forall cur, split_on d cur a = [rev cur ++ a].
Proof.
  induction a as [|c a IH]; intros Ha cur; cbn [split_on]; [now rewrite app_nil_r|].
  destruct (Z.eqb_spec c d) as [->|]; [exfalso; apply Ha; now left|]. rewrite IH by (intros X; apply Ha; now right).
  cbn [rev]. rewrite <- app_assoc. reflexivity.
Qed.
Lemma split_parts d s : match index_byte d s with None => split_on d [] s = [s] /\ ~ In d s
  | Some i => split_on d [] s = firstn i s :: split_on d [] (skipn (S i) s) /\ ~ In d (firstn i s) /\ s = firstn i s ++ d :: skipn (S i) s end.
Proof.
  rewrite split_on_eq. pose proof (index_byte_spec d s) as H. destruct (index_byte d s) as [i|]; cbn [rev app]; [|auto].
  destruct H as (A & B & C). auto.
Qed.
Lemma split_three line a b c : split_on ch_sp [] line = [a; b; c] <-> three_fields line a b c.
Proof.
  split.
  - intros E. pose proof (split_parts ch_sp line) as P1. destruct (index_byte ch_sp line) as [i|]; [|destruct P1 as [P1 _]; rewrite P1 in E; discriminate].
    destruct P1 as (E1 & N1 & L1). rewrite E1 in E. remember (skipn (S i) line) as s2 eqn:Hs2. injection E as <- E.
    pose proof (split_parts ch_sp s2) as P2. destruct (index_byte ch_sp s2) as [j|]; [|destruct P2 as [P2 _]; rewrite P2 in E; discriminate].
    destruct P2 as (E2 & N2 & L2). rewrite E2 in E. remember (skipn (S j) s2) as s3 eqn:Hs3. injection E as <- E.
    pose proof (split_parts ch_sp s3) as P3. destruct (index_byte ch_sp s3) as [k|].
    + destruct P3 as (E3 & _). rewrite E3 in E. remember (skipn (S k) s3) as s4 eqn:Hs4. injection E as _ E.
      exfalso. rewrite split_on_eq in E. destruct (index_byte ch_sp s4); discriminate E.
    + destruct P3 as [E3 N3]. rewrite E3 in E. injection E as <-. split; [|auto]. cbn [app]. rewrite L1 at 1. f_equal. f_equal. exact L2.
  - intros (-> & A & B & C). cbn [app]. unfold ch_sp. rewrite (split_app 32 a A). cbn [rev app]. rewrite (split_app 32 b B). cbn [rev app].
    rewrite (split_none 32 c C). reflexivity.
Qed.
Lemma says_unique parse line m v m' v' : says parse line m v -> says parse line m' v' -> m = m' /\ v = v'.
Proof.
  intros (x & r & T & P) (x' & r' & T' & P'). apply split_three in T, T'. rewrite T in T'. injection T' as -> -> ->. split; congruence.
Qed.
Lemma handle_line_says parse p now line s m v : says parse line m v ->
  handle_line parse p now line s = do s' <- w_add p now m v [] s; Ok (true, s').
Proof. intros (x & r & T & P). unfold handle_line. apply split_three in T. rewrite T, P. reflexivity. Qed.
Lemma handle_line_cases parse p now line s :
  (exists m v, says parse line m v) \/ ((forall m v, ~ says parse line m v) /\ handle_line parse p now line s = Ok (false, s)).
Proof.
  unfold handle_line. destruct (split_on ch_sp [] line) as [|a [|b [|c [|d l]]]] eqn:E.
  all: try (right; split; [intros m v (x & r & T & P); apply split_three in T; congruence|reflexivity]).
  destruct (parse b) as [v|] eqn:P.
  - left. exists a, v, b, c. split; [now apply split_three|exact P].
  - right. split; [|reflexivity]. intros m v (x & r & T & P'). apply split_three in T. congruence.
Qed.

(** * C44 *)
(** A line is accepted iff it has exactly three fields the second of which is a
    number *)
Theorem C44_accepted :
  forall parse p now line s s' ok,
  handle_line parse p now line s = Ok (ok, s') ->
  (ok = true <-> exists metric value rest, three_fields line metric value rest /\ parse value <> None).
Proof.
  intros parse p now line s s' ok E. destruct (handle_line_cases parse p now line s) as [(m & v & H)|[H H']].
  - rewrite (handle_line_says _ _ _ _ _ _ _ H) in E. destruct (w_add p now m v [] s); try discriminate. injection E as <- <-.
    split; [|reflexivity]. intros _. destruct H as (x & r & T & P). exists m, x, r. split; [assumption|congruence].
  - rewrite H' in E. injection E as <- <-. split; [discriminate|]. intros (m & x & r & T & P). destruct (parse x) as [v|] eqn:Q; [|contradiction].
    exfalso. apply (H m v). exists x, r. auto.
Qed.
(** An accepted line is exactly one Add of that value to that metric: what is
    pending for every metric afterwards (infinities and NaN do not count). A
    rejected line changes nothing. *)
Theorem C44_effect :
  forall parse p now line h s s' ok,
  w_hist p h s -> handle_line parse p now line s = Ok (ok, s') ->
  (ok = true -> exists metric v, says parse line metric v /\
     w_hist p (h ++ [EAdd now metric v []]) s' /\
     forall m, pending m (h ++ [EAdd now metric v []]) = pending m h ++ (if beqb m metric && counts v then [(v, [])] else [])) /\
  (ok = false -> s' = s).
Proof.
  intros parse p now line h s s' ok Hh E. destruct (handle_line_cases parse p now line s) as [(m & v & H)|[H H']].
  - rewrite (handle_line_says _ _ _ _ _ _ _ H) in E. destruct (w_add p now m v [] s) as [s1| | |] eqn:E1; try discriminate. injection E as <- <-.
    split; [|discriminate]. intros _. exists m, v. split; [assumption|]. split.
    + econstructor; [exact Hh|]. now constructor.
    + intros m'. rewrite pending_snoc. cbn [pending_add]. destruct (beqb m' m && counts v); [reflexivity|now rewrite app_nil_r].
  - rewrite H' in E. injection E as <- <-. split; [discriminate|reflexivity].
Qed.
(** and the call returns *)
Theorem C44_returns :
  forall parse p now line h s,
  p_new p = true -> w_hist p h s -> hist_floats h -> Z.of_nat (length h) + 1 < 2 ^ 63 -> (forall x v, parse x = Some v -> is_f64 v) ->
  exists ok s', handle_line parse p now line s = Ok (ok, s').
Proof.
  intros parse p now line h s Hp Hh Hf Hl Hv. destruct (handle_line_cases parse p now line s) as [(m & v & H)|[H H']]; [|eauto].
  rewrite (handle_line_says _ _ _ _ _ _ _ H).
  destruct (step_total p h s Hp Hh Hf Hl) as [A _]. destruct H as (x & r & T & P).
  destruct (A now m v [] (Hv x v P)) as (s1 & St). inversion St; subst.
  match goal with K : w_add _ _ _ _ _ _ = Ok _ |- _ => rewrite K end. cbn [bind]. eauto.
Qed.
(** "m 5 0" and "m  5 0" (two spaces: four fields) *)
Definition ex_parse (s : list Z) : option Z := if beqb s [53] then Some f5 else None.
Example C44_example :
  w_hist ex_params [] w_new /\
  (exists s', handle_line ex_parse ex_params 10 [109; 32; 53; 32; 48] w_new = Ok (true, s')) /\
  handle_line ex_parse ex_params 10 [109; 32; 32; 53; 32; 48] w_new = Ok (false, w_new).
Proof. split; [constructor|]. split; [eexists; vm_compute; reflexivity|vm_compute; reflexivity]. Qed.

(** * C54 *)
Lemma scan_line l : ~ In 10 l -> forall cur n rest, n + Z.of_nat (length l) < 65536 ->
  scan_ cur n (l ++ 10 :: rest) = let '(ls, ok) := scan_ [] 0 rest in (drop_cr (rev l ++ cur) :: ls, ok).
Proof.
  induction l as [|c l IH]; intros Hl cur n rest Hn.
  - cbn [app scan_ length] in *. unfold max_line. replace (65536 <=? n) with false by lia. cbn. reflexivity.
  - cbn [app scan_ length] in *. unfold max_line. replace (65536 <=? n) with false by lia.
    destruct (Z.eqb_spec c ch_nl) as [->|]; [exfalso; apply Hl; now left|].
    rewrite IH by (try lia; intros X; apply Hl; now right). cbn [rev]. rewrite <- app_assoc. reflexivity.
Qed.
Lemma drop_cr_proper l : last l 0 <> 13 -> drop_cr (rev l ++ []) = l.
Proof.
  intros H. rewrite app_nil_r. destruct l as [|c l] using rev_ind; [reflexivity|].
  rewrite rev_app_distr. cbn [rev app drop_cr]. rewrite last_last in H. destruct (Z.eqb_spec c ch_cr) as [->|]; [contradiction|].
  cbn [rev]. rewrite rev_involutive. reflexivity.
Qed.
Lemma scan_sent lines : Forall (fun l => proper_line (fst l)) lines -> forall rest,
  scan (sent lines ++ rest) = (map fst lines ++ fst (scan rest), snd (scan rest)).
Proof.
  unfold scan. induction 1 as [|[l cr] lines (A & B & C) Hl IH]; intros rest; [cbn; now destruct (scan_ [] 0 rest)|].
  cbn [fst] in A, B, C. unfold sent in *. cbn [flat_map fst snd map]. rewrite <- !app_assoc. destruct cr; cbn [eol app].
  - change (l ++ 13 :: 10 :: flat_map (fun l => fst l ++ eol (snd l)) lines ++ rest) with (l ++ [13] ++ 10 :: flat_map (fun l => fst l ++ eol (snd l)) lines ++ rest).
    rewrite app_assoc, scan_line.
    + rewrite IH, app_nil_r, rev_app_distr. cbn [rev app drop_cr]. change (13 =? ch_cr) with true. cbn match. rewrite rev_involutive. reflexivity.
    + rewrite in_app_iff. intros [X|[X|[]]]; [now apply A|discriminate].
    + rewrite app_length. cbn [length]. lia.
  - rewrite scan_line by (auto; lia). rewrite IH, drop_cr_proper by assumption. reflexivity.
Qed.
Lemma lines_asked parse p clock l : forall i h s s', w_hist p h s -> handle_lines parse p clock i l s = Ok s' ->
  exists es, asked parse clock i l es /\ w_hist p (h ++ es) s'.
Proof.
  induction l as [|line l IH]; intros i h s s' Hh E; cbn [handle_lines] in E.
  - injection E as <-. exists []. split; [constructor|]. now rewrite app_nil_r.
  - destruct (handle_line parse p (clock i) line s) as [[ok s1]| | |] eqn:E1; try discriminate. cbn [bind snd] in E.
    destruct (handle_line_cases parse p (clock i) line s) as [(m & v & H)|[H H']].
    + rewrite (handle_line_says _ _ _ _ _ _ _ H) in E1. destruct (w_add p (clock i) m v [] s) as [s2| | |] eqn:E2; try discriminate. injection E1 as <- <-.
      destruct (IH (S i) (h ++ [EAdd (clock i) m v []]) s2 s') as (es & A & B); [econstructor; [exact Hh|now constructor]|exact E|].
      exists (EAdd (clock i) m v [] :: es). split; [now constructor|]. rewrite <- app_assoc in B. exact B.
    + rewrite H' in E1. injection E1 as <- <-. destruct (IH (S i) h s s' Hh E) as (es & A & B). exists es. split; [now constructor|exact B].
Qed.
(** A connection that sent lines: the writer sees exactly the Adds the lines ask
    for, in order, whatever invalid lines are between them. *)
Theorem C54_connection :
  forall parse p clock lines h s s' ok,
  Forall (fun l => proper_line (fst l)) lines ->
  w_hist p h s -> handle_conn parse p clock (sent lines) s = Ok (ok, s') ->
  ok = true /\ exists adds, asked parse clock 0 (map fst lines) adds /\ w_hist p (h ++ adds) s'.
Proof.
  intros parse p clock lines h s s' ok Hl Hh E. unfold handle_conn in E.
  rewrite <- (app_nil_r (sent lines)), (scan_sent lines Hl []) in E. cbn [scan scan_ fst snd] in E.
  change (max_line <=? 0) with false in E. cbn match in E. cbn [fst snd] in E. rewrite app_nil_r in E.
  destruct (handle_lines parse p clock 0 (map fst lines) s) as [s1| | |] eqn:E1; try discriminate. cbn [bind] in E. injection E as <- <-.
  split; [reflexivity|]. eapply lines_asked; eauto.
Qed.
(** the last line counts without its newline *)
Theorem C54_last_line :
  forall parse p clock lines tail h s s' ok,
  Forall (fun l => proper_line (fst l)) lines -> proper_line tail -> tail <> [] ->
  w_hist p h s -> handle_conn parse p clock (sent lines ++ tail) s = Ok (ok, s') ->
  ok = true /\ exists adds, asked parse clock 0 (map fst lines ++ [tail]) adds /\ w_hist p (h ++ adds) s'.
Proof.
  intros parse p clock lines tail h s s' ok Hl (A & B & C) Hne Hh E. unfold handle_conn in E.
  rewrite (scan_sent lines Hl tail) in E.
  assert (T : forall t cur n, ~ In 10 t -> n + Z.of_nat (length t) < 65536 -> (cur <> [] \/ t <> []) ->
            scan_ cur n t = ([drop_cr (rev t ++ cur)], true)).
  { induction t as [|c t IH]; intros cur n Ht Hn Hc; cbn [scan_ length] in *; unfold max_line; replace (65536 <=? n) with false by lia.
    - destruct Hc as [Hc|Hc]; [|contradiction]. destruct cur; [contradiction|reflexivity].
    - destruct (Z.eqb_spec c ch_nl) as [->|]; [exfalso; apply Ht; now left|].
      rewrite IH; [cbn [rev]; rewrite <- app_assoc; reflexivity|intros X; apply Ht; now right|lia|left; discriminate]. }
  unfold scan in E. rewrite (T tail [] 0 A ltac:(lia) (or_intror Hne)), drop_cr_proper in E by assumption. cbn [fst snd] in E.
  destruct (handle_lines parse p clock 0 (map fst lines ++ [tail]) s) as [s1| | |] eqn:E1; try discriminate. cbn [bind] in E. injection E as <- <-.
  split; [reflexivity|]. eapply lines_asked; eauto.
Qed.
(** A line of 64 KiB or more ends the connection: it and everything after it
    are lost. *)
Theorem C54_long_line :
  forall parse p clock lines long rest h s s' ok,
  Forall (fun l => proper_line (fst l)) lines -> ~ In 10 long -> 65536 <= Z.of_nat (length long) ->
  w_hist p h s -> handle_conn parse p clock (sent lines ++ long ++ rest) s = Ok (ok, s') ->
  ok = false /\ exists adds, asked parse clock 0 (map fst lines) adds /\ w_hist p (h ++ adds) s'.
Proof.
  intros parse p clock lines long rest h s s' ok Hl Hn Hlen Hh E. unfold handle_conn in E.
  rewrite (scan_sent lines Hl (long ++ rest)) in E.
  assert (T : forall t cur n, ~ In 10 t -> 65536 <= n + Z.of_nat (length t) -> scan_ cur n (t ++ rest) = ([], false)).
  { induction t as [|c t IH]; intros cur n Ht Hm; cbn [length app] in *.
    - destruct rest; cbn [scan_]; unfold max_line; replace (65536 <=? n) with true by lia; reflexivity.
    - cbn [scan_]. unfold max_line. destruct (Z.leb_spec 65536 n); [reflexivity|].
      destruct (Z.eqb_spec c ch_nl) as [->|]; [exfalso; apply Ht; now left|]. apply IH; [intros X; apply Ht; now right|lia]. }
  unfold scan in E. rewrite (T long [] 0 Hn ltac:(lia)) in E. cbn [fst snd] in E. rewrite app_nil_r in E.
  destruct (handle_lines parse p clock 0 (map fst lines) s) as [s1| | |] eqn:E1; try discriminate. cbn [bind] in E. injection E as <- <-.
  split; [reflexivity|]. eapply lines_asked; eauto.
Qed.
(** three lines, the second without a number *)
Definition ex_lines : list (list Z * bool) := [([109; 32; 53; 32; 48], false); ([109; 32; 54; 32; 48], true); ([110; 32; 53; 32; 48], true)].
Example C54_example :
  Forall (fun l => proper_line (fst l)) ex_lines /\ w_hist ex_params [] w_new /\
  (exists s', handle_conn ex_parse ex_params (fun _ => 7) (sent ex_lines) w_new = Ok (true, s')) /\
  asked ex_parse (fun _ => 7) 0 (map fst ex_lines) [EAdd 7 [109] f5 []; EAdd 7 [110] f5 []].
Proof.
  split; [|split; [constructor|split; [eexists; vm_compute; reflexivity|]]].
  - repeat constructor; try (cbn; lia); intros H; repeat (destruct H as [H|H]; [discriminate|]); destruct H.
  - apply (as_good ex_parse (fun _ => 7) 0 [109; 32; 53; 32; 48]).
    + exists [53], [48]. split; [|reflexivity]. split; [reflexivity|]. repeat split; intros H; repeat (destruct H as [H|H]; [discriminate|]); destruct H.
    + apply as_bad.
      * intros m v (x & r & T & P). apply split_three in T. vm_compute in T. injection T as <- <- <-. discriminate.
      * apply (as_good ex_parse (fun _ => 7) 2 [110; 32; 53; 32; 48] [] [] [110] f5). { exists [53], [48]. split; [|reflexivity]. split; [reflexivity|]. repeat split; intros H; repeat (destruct H as [H|H]; [discriminate|]); destruct H. }
        constructor.
Qed.

Print Assumptions C44_accepted.
Print Assumptions C44_effect.
Print Assumptions C44_returns.
Print Assumptions C54_connection.
Print Assumptions C54_last_line.
Print Assumptions C54_long_line.
