From Coq Require Import ZArith List Bool Lia Permutation.
From Verif Require Import Base Maps Cache.
Import ListNotations.
Open Scope Z_scope.

Lemma set_nth_length {A} n (x : A) l : length (set_nth n x l) = length l.
Proof. revert n; induction l; destruct n; cbn; auto. Qed.

Lemma nth_set_nth {A} n (x : A) l i d : (n < length l)%nat ->
  nth i (set_nth n x l) d = if Nat.eqb n i then x else nth i l d.
Proof.
  revert n i; induction l as [|h t IH]; intros n i Hn; cbn in Hn; [lia|].
  destruct n, i; cbn; auto. rewrite IH by lia. reflexivity.
Qed.

Definition lookup {F} (c : cache F) (tok : Z) : option F :=
  option_map e_f (mget Z.eqb tok (c_handles c)).

(** the files in the cache, in eviction order *)
Definition held {F} (z : F) (c : cache F) : list F :=
  map (fun t => e_f (entry_at z c t)) (c_order c).

Definition cinv {F} (c : cache F) : Prop :=
  0 <= c_cap c < 2 ^ 32 /\ len (c_order c) <= c_cap c /\ 0 <= c_tok c /\
  (forall i, 0 <= i < len (c_order c) ->
     exists e, mget Z.eqb (nth (Z.to_nat i) (c_order c) 0) (c_handles c) = Some e /\
               e_loc e = i /\ e_tok e = nth (Z.to_nat i) (c_order c) 0) /\
  (forall t e, mget Z.eqb t (c_handles c) = Some e ->
     0 <= e_loc e < len (c_order c) /\ e_tok e = t /\
     nth (Z.to_nat (e_loc e)) (c_order c) 0 = t /\ 0 < t <= c_tok c).

Lemma cinv_new {F} cap rand : 0 <= cap < 2 ^ 32 -> cinv (@newCache F cap rand).
Proof.
  intros H. unfold cinv, newCache; cbn [c_cap c_order c_tok c_handles].
  change (len (@nil Z)) with 0. split; [lia|]. split; [lia|]. split; [lia|].
  split; [intros; lia|]. cbn. discriminate.
Qed.

Lemma fastMod_div n m : 0 <= n < 2 ^ 32 -> 0 <= m < 2 ^ 32 -> fastMod n m = n * m / 2 ^ 32.
Proof.
  intros Hn Hm. unfold fastMod, u64. rewrite (Z.mod_small m) by lia.
  assert (0 <= n * m < 2 ^ 32 * 2 ^ 32) by nia.
  rewrite (Z.mod_small (n * m)) by lia.
  apply i64_id. unfold is_i64.
  assert (0 <= n * m / 2 ^ 32 < 2 ^ 32).
  { split; [apply Z.div_pos; lia|apply Z.div_lt_upper_bound; lia]. }
  lia.
Qed.

Lemma fastMod_range n m : 0 <= n < 2 ^ 32 -> 0 < m < 2 ^ 32 -> 0 <= fastMod n m < m.
Proof.
  intros Hn Hm. rewrite fastMod_div by lia.
  split; [apply Z.div_pos; nia|]. apply Z.div_lt_upper_bound; nia.
Qed.

Definition rand_ok (s : stream) : Prop := forall n, 0 <= s n < 2 ^ 32.

Lemma order_inj {F} (c : cache F) i j : cinv c -> 0 <= i < len (c_order c) -> 0 <= j < len (c_order c) ->
  nth (Z.to_nat i) (c_order c) 0 = nth (Z.to_nat j) (c_order c) 0 -> i = j.
Proof.
  intros (_ & _ & _ & H & _) Hi Hj E.
  destruct (H i Hi) as (e & G & L & _). destruct (H j Hj) as (e' & G' & L' & _).
  rewrite E in G. congruence.
Qed.

Lemma put_spec {F} (z : F) c f : cinv c -> rand_ok (c_rand c) ->
  let '(c', tok, ev) := cache_put z c f in
  cinv c' /\ rand_ok (c_rand c') /\ c_cap c' = c_cap c /\
  tok = c_tok c + 1 /\ c_tok c' = tok /\
  (forall t g, lookup c' t = Some g ->
     (t = tok /\ g = f) \/ (t <> tok /\ lookup c t = Some g)).
Proof.
  intros HI HR. pose proof HI as (Hcap & Hlen & Htok & Ho & Hh). unfold cache_put.
  assert (Fresh : mget Z.eqb (c_tok c + 1) (c_handles c) = None).
  { destruct (mget _ _ _) eqn:E; [|reflexivity]. apply Hh in E. lia. }
  assert (HR' : rand_ok (fun n => c_rand c (S n))) by (intros n; apply HR).
  destruct (Z.ltb_spec (len (c_order c)) (c_cap c)).
  - (* room *)
    split.
    { unfold cinv; cbn [c_cap c_order c_tok c_handles]. rewrite len_app.
      change (len [c_tok c + 1]) with 1.
      split; [lia|]. split; [lia|]. split; [lia|]. split.
      - intros i Hi. destruct (Z.eq_dec i (len (c_order c))) as [->|Hne].
        + exists (Entry (len (c_order c)) (c_tok c + 1) f).
          replace (nth _ _ 0) with (c_tok c + 1).
          * now rewrite mget_put_same by apply eqb_ok_Z.
          * unfold len. rewrite Nat2Z.id, app_nth2, Nat.sub_diag by lia. reflexivity.
        + rewrite app_nth1 by (unfold len in *; lia).
          destruct (Ho i ltac:(lia)) as (e & G & L & T). exists e.
          rewrite mget_put_other; [auto|apply eqb_ok_Z|].
          intros E. rewrite <- E in G. congruence.
      - intros t e. rewrite mget_put by apply eqb_ok_Z.
        destruct (Z.eqb_spec (c_tok c + 1) t) as [<-|Hne].
        + intros [= <-]. cbn [e_loc e_tok]. pose proof (len_nonneg (c_order c)).
          split; [lia|]. split; [reflexivity|]. split; [|lia].
          unfold len. rewrite Nat2Z.id, app_nth2, Nat.sub_diag by lia. reflexivity.
        + intros G. destruct (Hh t e G) as (L & T & N & B).
          split; [lia|]. split; [exact T|]. split; [|lia].
          rewrite app_nth1 by (unfold len in *; lia). exact N. }
    cbn [c_rand c_cap c_tok]. split; [exact HR|]. split; [reflexivity|]. split; [reflexivity|]. split; [reflexivity|].
    intros t g. unfold lookup; cbn [c_handles]. rewrite mget_put by apply eqb_ok_Z.
    destruct (Z.eqb_spec (c_tok c + 1) t) as [<-|Hne]; cbn [option_map e_f].
    + intros [= <-]. auto.
    + intros G. right. split; [lia|exact G].
  - destruct (Z.eqb_spec (c_cap c) 0) as [E0|E0].
    + split.
      { unfold cinv; cbn [c_cap c_order c_tok c_handles]. split; [lia|]. split; [lia|]. split; [lia|]. split; [exact Ho|].
        intros t e G. destruct (Hh t e G) as (L & T & N & B). split; [exact L|]. split; [exact T|]. split; [exact N|]. lia. }
      cbn [c_rand c_cap c_tok]. split; [exact HR|]. split; [reflexivity|]. split; [reflexivity|]. split; [reflexivity|].
      intros t g G. right. split; [|exact G]. intros ->. unfold lookup in G. cbn [c_handles] in G.
      rewrite Fresh in G. discriminate.
    + (* eviction *)
      pose proof (len_nonneg (c_order c)).
      assert (Hl : len (c_order c) = c_cap c) by lia.
      pose proof (fastMod_range (c_rand c 0%nat) (c_cap c) (HR _) ltac:(lia)) as Hloc.
      set (loc := fastMod (c_rand c 0%nat) (c_cap c)) in *.
      destruct (Ho loc ltac:(lia)) as (cur & G & L & T).
      unfold entry_at. rewrite G.
      set (told := nth (Z.to_nat loc) (c_order c) 0) in *.
      assert (told <> c_tok c + 1) by (intros E; rewrite E in G; congruence).
      rewrite L, T.
      split.
      { unfold cinv; cbn [c_cap c_order c_tok c_handles].
        unfold len. rewrite set_nth_length. fold (len (c_order c)).
        split; [lia|]. split; [lia|]. split; [lia|]. split.
        - intros i Hi. rewrite nth_set_nth by (unfold len in *; lia).
          destruct (Nat.eqb_spec (Z.to_nat loc) (Z.to_nat i)) as [E|E].
          + assert (i = loc) as -> by lia. eexists. rewrite mget_put_same by apply eqb_ok_Z.
            split; [reflexivity|]. split; reflexivity.
          + destruct (Ho i ltac:(lia)) as (e & G' & L' & T'). exists e.
            assert (c_tok c + 1 <> nth (Z.to_nat i) (c_order c) 0)
              by (intros X; rewrite <- X in G'; congruence).
            assert (told <> nth (Z.to_nat i) (c_order c) 0).
            { intros X. apply (order_inj c loc i HI) in X; lia. }
            rewrite mget_put_other, mget_del_other by (auto using eqb_ok_Z). auto.
        - intros t e. rewrite mget_put by apply eqb_ok_Z.
          destruct (Z.eqb_spec (c_tok c + 1) t) as [<-|Hne].
          + intros [= <-]. cbn [e_loc e_tok]. split; [lia|]. split; [reflexivity|]. split; [|lia].
            rewrite nth_set_nth by (unfold len in *; lia). now rewrite Nat.eqb_refl.
          + rewrite mget_del by apply eqb_ok_Z.
            destruct (Z.eqb_spec told t) as [E|Hne2]; [discriminate|].
            intros G'. destruct (Hh t e G') as (L' & T' & N & B).
            split; [lia|]. split; [exact T'|]. split; [|lia].
            rewrite nth_set_nth by (unfold len in *; lia).
            destruct (Nat.eqb_spec (Z.to_nat loc) (Z.to_nat (e_loc e))) as [E|E]; [|exact N].
            exfalso. apply Hne2. unfold told. rewrite E. exact N. }
      cbn [c_rand c_cap c_tok]. split; [exact HR'|]. split; [reflexivity|]. split; [reflexivity|]. split; [reflexivity|].
      intros t g. unfold lookup; cbn [c_handles]. rewrite mget_put by apply eqb_ok_Z.
      destruct (Z.eqb_spec (c_tok c + 1) t) as [<-|Hne]; cbn [option_map e_f].
      * intros [= <-]. auto.
      * rewrite mget_del by apply eqb_ok_Z. destruct (told =? t); [discriminate|].
        intros G'. right. split; [lia|exact G'].
Qed.

Lemma entry_put_same {F} (z : F) a b o hs r t e :
  entry_at z (Cache a b o (mput Z.eqb t e hs) r) t = e.
Proof. unfold entry_at; cbn [c_handles]. now rewrite mget_put_same by apply eqb_ok_Z. Qed.

Lemma map_entry_ext {F} (z : F) c c' l :
  (forall t, In t l -> mget Z.eqb t (c_handles c') = mget Z.eqb t (c_handles c)) ->
  map (fun t => e_f (entry_at z c' t)) l = map (fun t => e_f (entry_at z c t)) l.
Proof. intros H. apply map_ext_in. intros t Ht. unfold entry_at. now rewrite H. Qed.

(** conservation at Put: what was held plus what was put is what is held now
    plus what was evicted *)
Lemma put_held {F} (z : F) c f : cinv c -> rand_ok (c_rand c) ->
  let '(c', tok, ev) := cache_put z c f in
  Permutation (f :: held z c) (held z c' ++ match ev with Some g => [g] | None => [] end).
Proof.
  intros HI HR. pose proof HI as (Hcap & Hlen & Htok & Ho & Hh). unfold cache_put.
  assert (Fresh : mget Z.eqb (c_tok c + 1) (c_handles c) = None).
  { destruct (mget _ _ _) eqn:E; [|reflexivity]. apply Hh in E. lia. }
  assert (NotIn : ~ In (c_tok c + 1) (c_order c)).
  { intros Hin. apply (In_nth _ _ 0) in Hin. destruct Hin as (i & Hi & E).
    destruct (Ho (Z.of_nat i) ltac:(unfold len; lia)) as (e & G & _).
    rewrite Nat2Z.id, E in G. congruence. }
  destruct (Z.ltb_spec (len (c_order c)) (c_cap c)).
  - unfold held; cbn [c_order]. rewrite map_app. cbn [map]. rewrite app_nil_r.
    rewrite entry_put_same. cbn [e_f].
    match goal with |- context [entry_at z (Cache ?a ?b ?o ?h ?r) _] => rewrite (map_entry_ext z c (Cache a b o h r)) end.
    + apply Permutation_cons_append.
    + intros t Ht. cbn [c_handles].
      apply mget_put_other; [apply eqb_ok_Z|intros <-; contradiction].
  - destruct (Z.eqb_spec (c_cap c) 0) as [E0|E0].
    + unfold held; cbn [c_order]. 
      apply Permutation_cons_append.
    + pose proof (len_nonneg (c_order c)).
      assert (Hl : len (c_order c) = c_cap c) by lia.
      pose proof (fastMod_range (c_rand c 0%nat) (c_cap c) (HR _) ltac:(lia)) as Hloc.
      set (loc := fastMod (c_rand c 0%nat) (c_cap c)) in *.
      destruct (Ho loc ltac:(lia)) as (cur & G & L & T).
      assert (Ecur : entry_at z c (nth (Z.to_nat loc) (c_order c) 0) = cur)
        by (unfold entry_at; now rewrite G).
      rewrite Ecur, L, T.
      set (told := nth (Z.to_nat loc) (c_order c) 0) in *.
      unfold held; cbn [c_order].
      (* split the order at loc *)
      assert (Hn : (Z.to_nat loc < length (c_order c))%nat) by (unfold len in *; lia).
      destruct (nth_split (c_order c) 0 Hn) as (l1 & l2 & E & E1).
      fold told in E.
      assert (Es : set_nth (Z.to_nat loc) (c_tok c + 1) (c_order c) = l1 ++ (c_tok c + 1) :: l2).
      { rewrite E, <- E1. clear. induction l1; cbn; congruence. }
      rewrite Es.
      assert (NL : ~ In told l1 /\ ~ In told l2).
      { assert (NoDup (c_order c)) as ND.
        { apply (NoDup_nth _ 0). intros i j Hi Hj X.
          assert (Z.of_nat i = Z.of_nat j); [|lia].
          apply (order_inj c _ _ HI); try (unfold len; lia). now rewrite !Nat2Z.id. }
        rewrite E in ND. apply NoDup_remove_2 in ND. rewrite in_app_iff in ND. tauto. }
      rewrite E at 1. rewrite !map_app. cbn [map]. rewrite <- app_assoc. cbn [app].
      assert (Same : forall l, (forall t, In t l -> In t (c_order c) /\ t <> told) ->
        map (fun t => e_f (entry_at z (Cache (c_tok c + 1) (c_cap c) (l1 ++ (c_tok c + 1) :: l2)
          (mput Z.eqb (c_tok c + 1) (Entry loc (c_tok c + 1) f) (mdel Z.eqb told (c_handles c)))
          (fun n => c_rand c (S n))) t)) l = map (fun t => e_f (entry_at z c t)) l).
      { intros l Hl'. apply map_ext_in. intros t Ht. destruct (Hl' t Ht) as [Ht1 Ht2].
        unfold entry_at; cbn [c_handles].
        rewrite mget_put_other, mget_del_other; auto using eqb_ok_Z.
        intros <-; contradiction. }
      rewrite (Same l1), (Same l2).
      2:{ intros t Ht. rewrite E, in_app_iff; cbn. split; [auto|intros ->; tauto]. }
      2:{ intros t Ht. rewrite E, in_app_iff; cbn. split; [auto|intros ->; tauto]. }
      rewrite entry_put_same, Ecur. cbn [e_f].
      set (A := map _ l1). set (B := map _ l2).
      etransitivity; [|apply Permutation_app_head; apply perm_skip; apply Permutation_cons_append].
      etransitivity; [|apply Permutation_middle]. apply perm_skip.
      reflexivity.
Qed.

Lemma nth_firstn_lt {A} n i (l : list A) d : (i < n)%nat -> nth i (firstn n l) d = nth i l d.
Proof. revert i l; induction n; intros i l H; [lia|]. destruct l; [now destruct i|]. destruct i; cbn; auto. apply IHn. lia. Qed.

Lemma take_spec {F} (z : F) c tok : cinv c ->
  let '(c', r) := cache_take z c tok in
  cinv c' /\ c_rand c' = c_rand c /\ c_cap c' = c_cap c /\ c_tok c' = c_tok c /\
  r = lookup c tok /\
  (forall t, lookup c' t = if t =? tok then None else lookup c t) /\
  Permutation (held z c) (held z c' ++ match r with Some g => [g] | None => [] end).
Proof.
  intros HI. pose proof HI as (Hcap & Hlen & Htok & Ho & Hh). unfold cache_take.
  destruct (mget Z.eqb tok (c_handles c)) as [e|] eqn:E.
  2:{ split; [exact HI|]. split; [reflexivity|]. split; [reflexivity|]. split; [reflexivity|].
      unfold lookup. rewrite E. split; [reflexivity|]. split.
      - intros t. destruct (Z.eqb_spec t tok) as [->|]; [now rewrite E|reflexivity].
      - now rewrite app_nil_r. }
  destruct (Hh tok e E) as (Le & Te & Ne & Be).
  set (n := len (c_order c)) in *.
  assert (Hn : (length (c_order c) - 1)%nat = Z.to_nat (n - 1)) by (unfold n, len; lia).
  rewrite Hn.
  destruct (Ho (n - 1) ltac:(lia)) as (la & Gl & Ll & Tl).
  set (lt := nth (Z.to_nat (n - 1)) (c_order c) 0) in *.
  assert (El : entry_at z c lt = la) by (unfold entry_at; now rewrite Gl).
  rewrite El, Tl, Te.
  set (order := set_nth (Z.to_nat (e_loc e)) lt (c_order c)).
  set (hs := mdel Z.eqb tok (mput Z.eqb lt (Entry (e_loc e) lt (e_f la)) (c_handles c))).
  assert (Lo : length order = length (c_order c)) by apply set_nth_length.
  assert (Hnth : forall i, (i < Z.to_nat (n - 1))%nat -> nth i (firstn (Z.to_nat (n - 1)) order) 0 =
            if Nat.eqb (Z.to_nat (e_loc e)) i then lt else nth i (c_order c) 0).
  { intros i Hi. rewrite nth_firstn_lt by lia. unfold order. apply nth_set_nth. unfold n, len in *. lia. }
  assert (Lf : len (firstn (Z.to_nat (n - 1)) order) = n - 1).
  { unfold len. rewrite firstn_length. unfold n, len in *. lia. }
  assert (Hg : forall t, mget Z.eqb t hs = if tok =? t then None else
               if lt =? t then Some (Entry (e_loc e) lt (e_f la)) else mget Z.eqb t (c_handles c)).
  { intros t. unfold hs. rewrite mget_del by apply eqb_ok_Z. destruct (tok =? t); [reflexivity|].
    apply mget_put, eqb_ok_Z. }
  assert (Hlk : forall t, option_map e_f (mget Z.eqb t hs) = if t =? tok then None else lookup c t).
  { intros t. rewrite Hg. rewrite (Z.eqb_sym t tok). destruct (tok =? t); [reflexivity|].
    destruct (Z.eqb_spec lt t) as [<-|]; [|reflexivity]. unfold lookup. now rewrite Gl. }
  split.
  { unfold cinv; cbn [c_cap c_order c_tok c_handles]. rewrite Lf.
    split; [lia|]. split; [lia|]. split; [lia|]. split.
    - intros i Hi. rewrite Hnth by lia.
      destruct (Nat.eqb_spec (Z.to_nat (e_loc e)) (Z.to_nat i)) as [X|X].
      + assert (i = e_loc e) by lia. subst i.
        assert (tok <> lt). { intros Y. assert (e_loc e = n - 1); [|lia].
          apply (order_inj c _ _ HI); try (unfold n in *; lia). }
        exists (Entry (e_loc e) lt (e_f la)). rewrite Hg.
        destruct (Z.eqb_spec tok lt); [contradiction|]. rewrite Z.eqb_refl. auto.
      + destruct (Ho i ltac:(lia)) as (e' & G' & L' & T'). exists e'. rewrite Hg.
        destruct (Z.eqb_spec tok (nth (Z.to_nat i) (c_order c) 0)) as [Y|Y].
        { exfalso. rewrite <- Y in G'. rewrite E in G'. injection G' as <-. lia. }
        destruct (Z.eqb_spec lt (nth (Z.to_nat i) (c_order c) 0)) as [Y'|Y'].
        { exfalso. assert (n - 1 = i); [|lia]. apply (order_inj c _ _ HI); try (unfold n in *; lia). }
        auto.
    - intros t e'. rewrite Hg. destruct (Z.eqb_spec tok t) as [|Ht]; [discriminate|].
      destruct (Z.eqb_spec lt t) as [<-|Hlt].
      + intros [= <-]. cbn [e_loc e_tok].
        assert (e_loc e <> n - 1). { intros Y. apply Ht. rewrite <- Ne. unfold lt. now rewrite Y. }
        split; [lia|]. split; [reflexivity|]. split.
        * rewrite Hnth by lia. now rewrite Nat.eqb_refl.
        * apply (Hh lt la Gl).
      + intros G'. destruct (Hh t e' G') as (L' & T' & N' & B').
        assert (e_loc e' <> n - 1). { intros Y. apply Hlt. rewrite <- N'. unfold lt. now rewrite Y. }
        split; [lia|]. split; [exact T'|]. split; [|exact B'].
        rewrite Hnth by lia. destruct (Nat.eqb_spec (Z.to_nat (e_loc e)) (Z.to_nat (e_loc e'))) as [Y|Y]; [|exact N'].
        exfalso. apply Ht. rewrite <- Ne, <- N'. f_equal. exact Y. }
  split; [reflexivity|]. split; [reflexivity|]. split; [reflexivity|].
  split. { unfold lookup. now rewrite E. }
  split. { intros t. apply Hlk. }
  (* conservation *)
  unfold held; cbn [c_order].
  set (c' := Cache (c_tok c) (c_cap c) (firstn (Z.to_nat (n - 1)) order) hs (c_rand c)).
  set (g := fun t => e_f (entry_at z c t)).
  assert (Hsame : forall t, t <> tok -> e_f (entry_at z c' t) = g t).
  { intros t Ht. specialize (Hlk t). destruct (Z.eqb_spec t tok); [contradiction|].
    unfold g, entry_at, c'; cbn [c_handles]. unfold lookup in Hlk.
    destruct (mget Z.eqb t hs), (mget Z.eqb t (c_handles c)); cbn in *; congruence. }
  assert (ND : NoDup (c_order c)).
  { apply (NoDup_nth _ 0). intros i j Hi Hj X. assert (Z.of_nat i = Z.of_nat j); [|lia].
    apply (order_inj c _ _ HI); try (unfold len; lia). now rewrite !Nat2Z.id. }
  assert (PO : Permutation (c_order c) (firstn (Z.to_nat (n - 1)) order ++ [tok])).
  { assert (X : c_order c = firstn (Z.to_nat (n - 1)) (c_order c) ++ [lt]).
    { rewrite <- (firstn_skipn (Z.to_nat (n - 1)) (c_order c)) at 1. f_equal.
      assert (length (skipn (Z.to_nat (n - 1)) (c_order c)) = 1)%nat as L1
        by (rewrite skipn_length; unfold n, len in *; lia).
      destruct (skipn _ (c_order c)) as [|x [|? ?]] eqn:S; cbn in L1; try lia.
      f_equal. unfold lt. rewrite <- (firstn_skipn (Z.to_nat (n - 1)) (c_order c)), S.
      rewrite app_nth2; rewrite firstn_length_le by (unfold n, len in *; lia); [|lia].
      now rewrite Nat.sub_diag. }
    set (m := Z.to_nat (n - 1)) in *. set (l := firstn m (c_order c)) in *.
    assert (Ll' : length l = m) by (unfold l, m; rewrite firstn_length; unfold n, len in *; lia).
    destruct (Z.eq_dec (e_loc e) (n - 1)) as [Y|Y].
    - assert (lt = tok) by (rewrite <- Ne; unfold lt; now rewrite Y).
      assert (firstn m order = l) as ->.
      { unfold order. rewrite Y. fold m. rewrite X, <- Ll'. clear. generalize lt at 1 as a.
        induction l as [|h l' IH]; intros a; cbn; [reflexivity|]. now rewrite IH. }
      rewrite X at 1. rewrite H. reflexivity.
    - assert (Hlt : (Z.to_nat (e_loc e) < length l)%nat) by lia.
      assert (Nl : nth (Z.to_nat (e_loc e)) l 0 = tok).
      { unfold l. rewrite nth_firstn_lt by lia. exact Ne. }
      destruct (nth_split l 0 Hlt) as (a & b & Ea & La). rewrite Nl in Ea.
      assert (firstn m order = a ++ lt :: b) as ->.
      { unfold order. rewrite X, Ea, <- La. rewrite <- app_assoc. cbn [app].
        assert (set_nth (length a) lt (a ++ tok :: b ++ [lt]) = (a ++ lt :: b) ++ [lt]) as ->.
        { clear. induction a; cbn; [reflexivity|]. now rewrite IHa. }
        rewrite firstn_app. replace (length (a ++ lt :: b)) with m.
        - rewrite Nat.sub_diag. cbn [firstn]. rewrite app_nil_r. apply firstn_all2.
          rewrite <- Ll', Ea, !app_length. cbn. lia.
        - rewrite <- Ll', Ea, !app_length. cbn. lia. }
      rewrite X, Ea. rewrite <- !app_assoc. cbn [app].
      apply Permutation_app_head.
      change (tok :: b ++ [lt]) with ((tok :: b) ++ [lt]).
      etransitivity; [apply Permutation_app_comm|]. cbn [app]. apply perm_skip.
      apply Permutation_cons_append. }
  assert (Em : map (fun t => e_f (entry_at z c' t)) (firstn (Z.to_nat (n - 1)) order)
             = map g (firstn (Z.to_nat (n - 1)) order)).
  { apply map_ext_in. intros t Ht. apply Hsame. intros ->.
    assert (NoDup (firstn (Z.to_nat (n - 1)) order ++ [tok])) as ND'
      by (eapply Permutation_NoDup; eauto).
    apply NoDup_remove_2 in ND'. apply ND'. rewrite app_nil_r. exact Ht. }
  rewrite Em. replace [e_f e] with (map g [tok]).
  - rewrite <- map_app. apply Permutation_map. exact PO.
  - cbn. unfold g, entry_at. now rewrite E.
Qed.
