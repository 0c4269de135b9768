From Coq Require Import ZArith List Bool Lia Permutation.
From Verif Require Import Base Maps Cache CacheProofs FileCache.
Import ListNotations.
Open Scope Z_scope.

Definition iota (n : nat) : list Z := map Z.of_nat (seq 0 n).

Lemma take_all_spec {F} (z : F) c : cinv c ->
  let '(c', l) := cache_take_all z c in
  cinv c' /\ c_rand c' = c_rand c /\ c_cap c' = c_cap c /\ c_tok c' = c_tok c /\
  held z c' = [] /\ (forall t, lookup c' t = None) /\ Permutation l (held z c).
Proof.
  intros (H1 & H2 & H3 & H4 & H5). unfold cache_take_all.
  assert (Hnone : forall t, mget Z.eqb t (fold_left (fun hs tok => mdel Z.eqb tok hs) (rev (c_order c)) (c_handles c)) = None).
  { intros t.
    assert (G : forall l (hs : list (Z * entry F)), mget Z.eqb t (fold_left (fun hs tok => mdel Z.eqb tok hs) l hs) =
                 if existsb (Z.eqb t) l then None else mget Z.eqb t hs).
    { induction l as [|a l IH]; intros hs; cbn; [reflexivity|]. rewrite IH, mget_del by apply eqb_ok_Z.
      rewrite (Z.eqb_sym a t). destruct (t =? a); cbn; [now destruct (existsb _ _)|reflexivity]. }
    rewrite G. destruct (existsb _ _) eqn:E; [reflexivity|].
    destruct (mget Z.eqb t (c_handles c)) as [e|] eqn:Em; [|reflexivity].
    destruct (H5 t e Em) as (L1 & _ & L3 & _).
    assert (In t (rev (c_order c))).
    { rewrite <- in_rev, <- L3. apply nth_In. unfold len in L1. lia. }
    assert (existsb (Z.eqb t) (rev (c_order c)) = true) by (apply existsb_exists; exists t; split; [assumption|apply Z.eqb_refl]).
    congruence. }
  split; [|split; [reflexivity|split; [reflexivity|split; [reflexivity|split; [reflexivity|split]]]]].
  - unfold cinv. cbn [c_cap c_order c_tok c_handles]. change (len (@nil Z)) with 0.
    split; [lia|]. split; [lia|]. split; [lia|]. split; [intros; lia|]. intros t e E. rewrite Hnone in E. discriminate.
  - intros t. unfold lookup. cbn [c_handles]. now rewrite Hnone.
  - unfold held. apply Permutation_map. symmetry. apply Permutation_rev.
Qed.

Definition finv (cap : Z) (st : fcache) : Prop :=
  cinv (fc_ch st) /\ rand_ok (c_rand (fc_ch st)) /\ c_cap (fc_ch st) = cap /\
  Permutation (held 0 (fc_ch st) ++ fc_out st ++ fc_closed st) (iota (length (fc_opened st))) /\
  (forall p t, mget beqb p (fc_toks st) = Some t -> t <= c_tok (fc_ch st)) /\
  (forall p t h, mget beqb p (fc_toks st) = Some t -> lookup (fc_ch st) t = Some h ->
     nth_error (fc_opened st) (Z.to_nat h) = Some p).

Lemma finv_new cap rand : 0 <= cap < 2 ^ 32 -> rand_ok rand -> finv cap (fc_new cap rand).
Proof.
  intros Hc Hr. unfold finv, fc_new. cbn [fc_ch fc_out fc_closed fc_opened fc_toks].
  split; [now apply cinv_new|]. split; [exact Hr|]. split; [reflexivity|]. split; [apply Permutation_refl|].
  split; cbn; discriminate.
Qed.

Lemma lookup_in {F} (z : F) (c : cache F) t f : cinv c -> lookup c t = Some f -> In f (held z c).
Proof.
  intros (_ & _ & _ & _ & H5) E. unfold lookup in E. destruct (mget Z.eqb t (c_handles c)) as [e|] eqn:Em; [|discriminate].
  injection E as <-. destruct (H5 t e Em) as (L1 & _ & L3 & _). unfold held. apply in_map_iff. exists t.
  split; [unfold entry_at; now rewrite Em|]. rewrite <- L3. apply nth_In. unfold len in L1. lia.
Qed.

Lemma iota_S n : iota (S n) = iota n ++ [Z.of_nat n].
Proof. unfold iota. now rewrite seq_S, map_app. Qed.
Lemma iota_nodup n : NoDup (iota n).
Proof. unfold iota. apply FinFun.Injective_map_NoDup; [intros a b; lia|apply seq_NoDup]. Qed.
Lemma in_iota h n : In h (iota n) <-> 0 <= h < Z.of_nat n.
Proof.
  unfold iota. rewrite in_map_iff. split.
  - intros (k & <- & Hk). apply in_seq in Hk. lia.
  - intros H. exists (Z.to_nat h). split; [lia|]. apply in_seq. lia.
Qed.

Lemma nodup_app_r {A} (a b : list A) : NoDup (a ++ b) -> NoDup b.
Proof. induction a as [|x a IH]; intros H; [exact H|]. inversion H; subst. auto. Qed.
Lemma nodup_app_l {A} (a b : list A) : NoDup (a ++ b) -> NoDup a.
Proof.
  induction a as [|x a IH]; intros H; [constructor|]. inversion H; subst. constructor; [|auto].
  intros X. apply H2. apply in_or_app. now left.
Qed.

Lemma remove_perm h l : NoDup l -> In h l -> Permutation l (h :: remove Z.eq_dec h l).
Proof.
  induction l as [|a l IH]; intros ND Hin; [contradiction|]. inversion ND; subst. cbn.
  destruct (Z.eq_dec h a) as [->|Hne].
  - rewrite notin_remove by assumption. reflexivity.
  - destruct Hin as [->|Hin]; [contradiction|]. rewrite (IH H2 Hin) at 1. apply perm_swap.
Qed.

Lemma finv_step cap o st : finv cap st ->
  match o with
  | FRelease path h => In h (fc_out st) /\ nth_error (fc_opened st) (Z.to_nat h) = Some path
  | _ => True
  end -> finv cap (fst (fc_step o st)) /\
  (forall p b h, o = FAcquire p b -> snd (fc_step o st) = Some h ->
     nth_error (fc_opened (fst (fc_step o st))) (Z.to_nat h) = Some p /\ In h (fc_out (fst (fc_step o st)))).
Proof.
  intros (C & R & K & P & T & O) Hok. destruct o as [path opens|path h|path|]; cbn [fc_step].
  - (* acquire *)
    assert (Hmiss : forall c, (c = fc_ch st \/ exists tok, c = fst (cache_take 0 (fc_ch st) tok) /\ snd (cache_take 0 (fc_ch st) tok) = None) ->
       cinv c /\ c_rand c = c_rand (fc_ch st) /\ c_cap c = c_cap (fc_ch st) /\ c_tok c = c_tok (fc_ch st) /\
       Permutation (held 0 c) (held 0 (fc_ch st)) /\ (forall t g, lookup c t = Some g -> lookup (fc_ch st) t = Some g)).
    { intros c [->|(tok & -> & E)].
      - repeat (split; [auto; reflexivity|]). auto.
      - pose proof (take_spec 0 (fc_ch st) tok C) as Hs. destruct (cache_take 0 (fc_ch st) tok) as [c' r]. cbn [fst snd] in *. subst r.
        destruct Hs as (S1 & S2 & S3 & S4 & _ & S6 & S7). rewrite app_nil_r in S7.
        split; [exact S1|]. split; [exact S2|]. split; [exact S3|]. split; [exact S4|]. split; [now symmetry|].
        intros t g. rewrite S6. destruct (t =? tok); [discriminate|auto]. }
    assert (Hnew : forall c, cinv c /\ c_rand c = c_rand (fc_ch st) /\ c_cap c = c_cap (fc_ch st) /\ c_tok c = c_tok (fc_ch st) /\
       Permutation (held 0 c) (held 0 (fc_ch st)) /\ (forall t g, lookup c t = Some g -> lookup (fc_ch st) t = Some g) ->
       finv cap (FC (fc_toks st) c (fc_opened st ++ [path]) (len (fc_opened st) :: fc_out st) (fc_closed st)) /\
       finv cap (FC (fc_toks st) c (fc_opened st) (fc_out st) (fc_closed st))).
    { intros c (S1 & S2 & S3 & S4 & S5 & S6). unfold finv. cbn [fc_ch fc_out fc_closed fc_opened fc_toks].
      rewrite S2, S3, S4. split.
      - split; [exact S1|]. split; [exact R|]. split; [exact K|]. split; [|split; [exact T|]].
        + rewrite app_length. cbn [length]. rewrite Nat.add_1_r, iota_S. change (len (fc_opened st)) with (Z.of_nat (length (fc_opened st))).
          rewrite <- P, S5. cbn [app]. rewrite <- Permutation_middle. rewrite <- Permutation_cons_append. reflexivity.
        + intros p t h E1 E2. pose proof (O p t h E1 (S6 _ _ E2)) as E3.
          rewrite nth_error_app1; [exact E3|]. apply nth_error_Some. congruence.
      - split; [exact S1|]. split; [exact R|]. split; [exact K|]. split; [|split; [exact T|]].
        + now rewrite S5.
        + intros p t h E1 E2. exact (O p t h E1 (S6 _ _ E2)). }
    assert (Hlast : nth_error (fc_opened st ++ [path]) (Z.to_nat (len (fc_opened st))) = Some path).
    { unfold len. rewrite Nat2Z.id, nth_error_app2, Nat.sub_diag by lia. reflexivity. }
    destruct (mget beqb path (fc_toks st)) as [tok|] eqn:Et.
    + pose proof (take_spec 0 (fc_ch st) tok C) as Hs. pose proof (Hmiss (fst (cache_take 0 (fc_ch st) tok))) as Hm.
      destruct (cache_take 0 (fc_ch st) tok) as [c r] eqn:Ec. destruct r as [h|].
      * cbn [fst snd]. destruct Hs as (S1 & S2 & S3 & S4 & S5 & S6 & S7). split.
        -- unfold finv. cbn [fc_ch fc_out fc_closed fc_opened fc_toks]. rewrite S2, S3, S4.
           split; [exact S1|]. split; [exact R|]. split; [exact K|]. split; [|split; [exact T|]].
           ++ rewrite <- P, S7. rewrite <- app_assoc. reflexivity.
           ++ intros p t g E1 E2. apply (O p t g E1). rewrite S6 in E2. destruct (t =? tok); [discriminate|exact E2].
        -- intros p b g [= <- <-] [= <-]. cbn [fc_opened fc_out]. split; [|now left]. apply (O path tok h Et). now symmetry.
      * destruct (Hnew c (Hm (or_intror (ex_intro _ tok (conj (f_equal fst (eq_sym Ec)) (f_equal snd Ec)))))) as [N1 N2].
        destruct opens; cbn [fst snd]; (split; [assumption|]); intros p b g [= <- _] Eg; [|discriminate].
        injection Eg as <-. cbn [fc_opened fc_out]. split; [exact Hlast|now left].
    + destruct (Hnew (fc_ch st) (Hmiss _ (or_introl eq_refl))) as [N1 N2].
      destruct opens; cbn [fst snd]; (split; [assumption|]); intros p b g [= <- _] Eg; [|discriminate].
      injection Eg as <-. cbn [fc_opened fc_out]. split; [exact Hlast|now left].
  - (* release *)
    destruct Hok as [Hin Hor]. pose proof (put_spec 0 (fc_ch st) h C R) as Hs. pose proof (put_held 0 (fc_ch st) h C R) as Hh.
    destruct (cache_put 0 (fc_ch st) h) as [[c tok] ev]. destruct Hs as (S1 & S2 & S3 & S4 & S5 & S6).
    split; [|discriminate]. cbn [fst]. unfold finv. cbn [fc_ch fc_out fc_closed fc_opened fc_toks].
    split; [exact S1|]. split; [exact S2|]. split; [congruence|]. split; [|split].
    + assert (NDo : NoDup (fc_out st)).
      { pose proof (Permutation_NoDup (Permutation_sym P) (iota_nodup _)) as ND.
        apply nodup_app_r in ND. now apply nodup_app_l in ND. }
      rewrite <- P.
      pose proof (remove_perm h (fc_out st) NDo Hin) as Hrm. set (rm := remove Z.eq_dec h (fc_out st)) in *.
      rewrite Hrm. cbn [app].
      assert (X : forall (a b e x y : list Z), Permutation (h :: a) (b ++ e) -> 
                Permutation (b ++ x ++ e ++ y) (a ++ h :: x ++ y)).
      { intros a b e x y Hp. rewrite <- Permutation_middle. 
        change (h :: a ++ x ++ y) with ((h :: a) ++ x ++ y). rewrite Hp, <- app_assoc.
        apply Permutation_app_head. rewrite !app_assoc. apply Permutation_app_tail, Permutation_app_comm. }
      apply X. exact Hh.
    + intros p t E. rewrite mget_put in E by apply eqb_ok_bytes. rewrite S5, S4.
      destruct (beqb path p); [injection E as <-; lia|]. specialize (T p t E). lia.
    + intros p t g E1 E2. rewrite mget_put in E1 by apply eqb_ok_bytes.
      destruct (beqb path p) eqn:Eb.
      * apply beqb_eq in Eb. injection E1 as <-. subst p. destruct (S6 _ _ E2) as [[_ ->]|[X _]]; [exact Hor|contradiction].
      * destruct (S6 _ _ E2) as [[-> _]|[_ E3]]; [specialize (T p _ E1); lia|]. exact (O p t g E1 E3).
  - (* evict *)
    split; [|discriminate]. destruct (mget beqb path (fc_toks st)) as [tok|] eqn:Et; [|exact (conj C (conj R (conj K (conj P (conj T O)))))].
    pose proof (take_spec 0 (fc_ch st) tok C) as Hs. destruct (cache_take 0 (fc_ch st) tok) as [c r].
    destruct Hs as (S1 & S2 & S3 & S4 & S5 & S6 & S7). cbn [fst]. unfold finv. cbn [fc_ch fc_out fc_closed fc_opened fc_toks].
    rewrite S2, S3, S4. split; [exact S1|]. split; [exact R|]. split; [exact K|]. split; [|split].
    + rewrite <- P, S7, <- app_assoc. apply Permutation_app_head. rewrite !app_assoc. apply Permutation_app_tail, Permutation_app_comm.
    + intros p t E. rewrite mget_del in E by apply eqb_ok_bytes. destruct (beqb path p); [discriminate|eauto].
    + intros p t g E1 E2. rewrite mget_del in E1 by apply eqb_ok_bytes. destruct (beqb path p); [discriminate|].
      apply (O p t g E1). rewrite S6 in E2. destruct (t =? tok); [discriminate|exact E2].
  - (* close *)
    split; [|discriminate]. pose proof (take_all_spec 0 (fc_ch st) C) as Hs. destruct (cache_take_all 0 (fc_ch st)) as [c l].
    destruct Hs as (S1 & S2 & S3 & S4 & S5 & S6 & S7). cbn [fst]. unfold finv. cbn [fc_ch fc_out fc_closed fc_opened fc_toks].
    rewrite S2, S3, S5. split; [exact S1|]. split; [exact R|]. split; [exact K|]. split; [|split; cbn; discriminate].
    rewrite <- P, <- S7. cbn [app]. rewrite !app_assoc. apply Permutation_app_tail, Permutation_app_comm.
Qed.

Lemma finv_run cap ops : forall st, finv cap st -> fc_ok ops st -> finv cap (fc_run ops st).
Proof.
  induction ops as [|o ops IH]; intros st HI Hok; [exact HI|]. cbn [fc_ok] in Hok. destruct Hok as [H1 H2].
  unfold fc_run. cbn [fold_left]. apply IH; [|exact H2]. now apply finv_step.
Qed.
