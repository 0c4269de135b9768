(** C93: the mapped files of a database are bounded by its option and its callers. *)
From Coq Require Import ZArith List Lia Bool Permutation.
From Verif Require Import Base Maps Cache CacheProofs PcgProofs FileCache FileCacheProofs Record Meta File Sys Props_Sys CachedFiles.
Import ListNotations.
Open Scope Z_scope.

(** ** lists *)
Lemma pos_lt h l : In h l -> (pos h l < length l)%nat.
Proof. induction l as [|x l IH]; [easy|]. cbn [pos length]. destruct (Z.eqb_spec x h); [lia|]. intros [E|I]; [easy|]. apply IH in I. lia. Qed.
Lemma pos_nth h l : In h l -> nth_error l (pos h l) = Some h.
Proof. induction l as [|x l IH]; [easy|]. cbn [pos]. destruct (Z.eqb_spec x h); [now subst|]. intros [E|I]; [easy|]. cbn [nth_error]. auto. Qed.
Lemma without_len {A} (l : list A) : forall i, (i < length l)%nat -> length (without i l) = (length l - 1)%nat.
Proof. induction l as [|x l IH]; intros [|i] H; cbn [without length] in *; try lia. rewrite IH by lia. lia. Qed.
Lemma without_pos h l : NoDup l -> forall x, In x (without (pos h l) l) <-> In x l /\ x <> h.
Proof.
  induction 1 as [|y l N D IH]; intros x; cbn [pos without].
  - easy.
  - destruct (Z.eqb_spec y h) as [->|E]; cbn [without In].
    + split; [intros I; split; [auto|intros ->; contradiction]|intros [[->|I] F]; [now contradiction F|exact I]].
    + rewrite IH. split; [intros [->|[I F]]; auto|intros [[->|I] F]; auto].
Qed.
Lemma without_id_nodup {A} (l : list A) i : NoDup l -> NoDup (without i l).
Proof. intros H. rewrite <- (map_id l) in H. apply (without_nodup (fun x => x) l i) in H. now rewrite map_id in H. Qed.

(** ** the process is one of C89's *)
Lemma f_run_app os1 : forall os2 e p, f_run (os1 ++ os2) e p =
  let '(rs1, e, p) := f_run os1 e p in let '(rs2, e, p) := f_run os2 e p in (rs1 ++ rs2, e, p).
Proof.
  induction os1 as [|o os1 IH]; intros os2 e p; cbn [app f_run].
  - destruct (f_run os2 e p) as [[rs e'] p']. reflexivity.
  - destruct (f_step o e p) as [[r e1] p1]. rewrite IH. destruct (f_run os1 e1 p1) as [[rs1 e2] p2]. destruct (f_run os2 e2 p2) as [[rs2 e3] p3]. reflexivity.
Qed.
Definition reach (P : fcall -> Prop) (e0 e : env) (p : proc) : Prop := exists fos rs, Forall P fos /\ f_run fos e0 p_init = (rs, e, p).
Lemma reach_step P e0 e p o r e' p' : reach P e0 e p -> P o -> f_step o e p = (r, e', p') -> reach P e0 e' p'.
Proof.
  intros (fos & rs & F & E) Ho S. exists (fos ++ [o]), (rs ++ [r]). split; [apply Forall_app; auto|].
  rewrite f_run_app, E. cbn [f_run]. now rewrite S.
Qed.

(** ** the invariant *)
Definition inv (P : fcall -> Prop) (cap : Z) (e0 e : env) (s : cfiles) : Prop :=
  finv cap (cf_cache s) /\ reach P e0 e (cf_proc s) /\ NoDup (cf_live s) /\ length (cf_live s) = length (p_held (cf_proc s)) /\
  forall h, In h (cf_live s) <-> In h (held 0 (fc_ch (cf_cache s)) ++ fc_out (cf_cache s)).
Lemma open_handles cap st : finv cap st -> forall h, In h (held 0 (fc_ch st) ++ fc_out st) <-> 0 <= h < len (fc_opened st) /\ ~ In h (fc_closed st).
Proof.
  intros (_ & _ & _ & P & _) h. rewrite app_assoc in P.
  pose proof (Permutation_NoDup (Permutation_sym P) (iota_nodup _)) as N.
  assert (J : In h ((held 0 (fc_ch st) ++ fc_out st) ++ fc_closed st) <-> 0 <= h < len (fc_opened st)).
  { unfold len. rewrite <- in_iota. split; apply Permutation_in; [exact P|now apply Permutation_sym]. }
  rewrite in_app_iff in J. split.
  - intros I. split; [apply J; auto|]. revert N I. generalize (held 0 (fc_ch st) ++ fc_out st) as l. induction l as [|x l IH]; [easy|].
    cbn [app]. intros N I. inversion N as [|? ? M D]; subst. destruct I as [->|I]; [intros C; apply M, in_app_iff; auto|auto].
  - intros [R C]. apply J in R. destruct R; [assumption|contradiction].
Qed.
Definition keeps (P : fcall -> Prop) : Prop := forall i, P (FSync i) /\ P (FClose i).
Lemma close_all P e0 hs : keeps P -> forall e p live e' p' live',
  close_handles hs e p live = (e', p', live') -> reach P e0 e p -> NoDup live -> length live = length (p_held p) -> NoDup hs -> incl hs live ->
  reach P e0 e' p' /\ NoDup live' /\ length live' = length (p_held p') /\ forall h, In h live' <-> In h live /\ ~ In h hs.
Proof.
  intros K. induction hs as [|h hs IH]; intros e p live e' p' live' E R N L D I; cbn [close_handles] in E.
  - injection E as <- <- <-. split; [exact R|]. split; [exact N|]. split; [exact L|]. intros h. tauto.
  - inversion D as [|? ? M D']; subst. assert (Ih : In h live) by (apply I; now left). pose proof (pos_lt _ _ Ih) as Lt.
    unfold close_handle in E. destruct (f_step (FClose (pos h live)) e p) as [[r e1] p1] eqn:S.
    pose proof (reach_step _ _ _ _ _ _ _ _ R (proj2 (K _)) S) as R1.
    assert (H1 : p_held p1 = without (pos h live) (p_held p)).
    { cbn [f_step] in S. destruct (nth_error (p_held p) (pos h live)) as [f|] eqn:En; [|apply nth_error_None in En; lia].
      destruct (close_file f e (p_kernel p)) as [[r' e2] k']. injection S as _ _ <-. reflexivity. }
    apply IH in E; [|exact R1|now apply without_id_nodup|rewrite H1, !without_len by lia; lia|exact D'|].
    + destruct E as (A & B & C & E). split; [exact A|]. split; [exact B|]. split; [exact C|]. intros x. rewrite E, without_pos by exact N. cbn [In]. split.
      * intros [[X Y] Z]. split; [exact X|]. intros [->|W]; [now apply Y|contradiction].
      * intros [X Y]. split; [split; [exact X|]|]; intros ?; apply Y; [left; congruence|auto].
    + intros x Hx. rewrite without_pos by exact N. split; [apply I; now right|intros ->; contradiction].
Qed.
Lemma closing_inv P cap e0 o e s e' s' : keeps P -> inv P cap e0 e s -> cf_closing o e s = (e', s') -> finv cap (fst (fc_step o (cf_cache s))) ->
  (exists new, fc_closed (fst (fc_step o (cf_cache s))) = new ++ fc_closed (cf_cache s)) ->
  fc_opened (fst (fc_step o (cf_cache s))) = fc_opened (cf_cache s) -> inv P cap e0 e' s'.
Proof.
  intros K (F & R & N & L & I) E F' [new C] O. unfold cf_closing in E. set (st := fst (fc_step o (cf_cache s))) in *.
  assert (W : newly_closed (cf_cache s) st = new).
  { unfold newly_closed. rewrite C, app_length, Nat.add_sub. rewrite firstn_app, Nat.sub_diag, firstn_all. cbn [firstn]. now rewrite app_nil_r. }
  rewrite W in E. destruct (close_handles new e (cf_proc s) (cf_live s)) as [[e1 p1] l1] eqn:Ec. injection E as <- <-.
  pose proof (open_handles _ _ F) as G. pose proof (open_handles _ _ F') as G'. rewrite O, C in G'.
  assert (Nc : NoDup (new ++ fc_closed (cf_cache s))).
  { rewrite <- C. destruct F' as (_ & _ & _ & P' & _). eapply nodup_app_r, nodup_app_r, (Permutation_NoDup (Permutation_sym P')), iota_nodup. }
  assert (Disj : forall x, In x new -> ~ In x (fc_closed (cf_cache s))).
  { clear - Nc. induction new as [|y new IH]; [easy|]. cbn [app] in Nc. inversion Nc; subst. intros x [->|X]; [|auto]. intros Y. apply H1, in_app_iff. auto. }
  assert (Hin : incl new (cf_live s)).
  { intros x X. apply I, G. split; [|now apply Disj]. destruct F' as (_ & _ & _ & P' & _). rewrite O in P'. unfold len. apply in_iota.
    eapply Permutation_in; [exact P'|]. rewrite C, !in_app_iff. auto. }
  apply (close_all P e0 new K) in Ec; [|assumption..|now apply nodup_app_l in Nc|exact Hin].
  destruct Ec as (A & B & D & E). unfold inv. cbn [cf_cache cf_proc cf_live]. fold st. split; [exact F'|]. split; [exact A|]. split; [exact B|]. split; [exact D|].
  intros h. rewrite E, I, G, G', in_app_iff. tauto.
Qed.
Definition opens (P : fcall -> Prop) (o : cfop) : Prop := match o with CFAcquire _ o => P o | _ => True end.
Definition allowed (o : cfop) (s : cfiles) : Prop :=
  match o with
  | CFAcquire _ (FOpen _ | FCreate _ _) => True
  | CFAcquire _ _ => False
  | CFRelease path h => In h (fc_out (cf_cache s)) /\ nth_error (fc_opened (cf_cache s)) (Z.to_nat h) = Some path
  | CFSync h => In h (fc_out (cf_cache s))
  | _ => True
  end.
Lemma step_inv P cap e0 o e s e' s' : keeps P -> inv P cap e0 e s -> allowed o s -> opens P o -> cf_step o e s = (e', s') -> inv P cap e0 e' s'.
Proof.
  intros K V A Ho E. destruct o as [path o|path h|path| |h].
  - destruct V as (F & R & N & L & I). cbn [cf_step] in E.
    pose proof (proj1 (finv_step cap (FAcquire path false) _ F Logic.I)) as F0. pose proof (proj1 (finv_step cap (FAcquire path true) _ F Logic.I)) as F1.
    pose proof (open_handles _ _ F) as G. pose proof (open_handles _ _ F0) as G0. pose proof (open_handles _ _ F1) as G1.
    assert (H0 : fc_opened (fst (fc_step (FAcquire path false) (cf_cache s))) = fc_opened (cf_cache s) /\
                 fc_closed (fst (fc_step (FAcquire path false) (cf_cache s))) = fc_closed (cf_cache s)).
    { cbn [fc_step]. destruct (match mget beqb path (fc_toks (cf_cache s)) with None => _ | Some tok => _ end) as [c [h|]]; split; reflexivity. }
    assert (H1 : snd (fc_step (FAcquire path false) (cf_cache s)) = None ->
                 fc_opened (fst (fc_step (FAcquire path true) (cf_cache s))) = fc_opened (cf_cache s) ++ [path] /\
                 fc_closed (fst (fc_step (FAcquire path true) (cf_cache s))) = fc_closed (cf_cache s)).
    { cbn [fc_step]. destruct (match mget beqb path (fc_toks (cf_cache s)) with None => _ | Some tok => _ end) as [c [h|]]; [discriminate|]. split; reflexivity. }
    destruct H0 as [O0 C0]. rewrite O0, C0 in G0.
    destruct (snd (fc_step (FAcquire path false) (cf_cache s))) as [h|].
    + injection E as <- <-. unfold inv. cbn [cf_cache cf_proc cf_live]. repeat (split; [assumption|]). intros h'. rewrite I, G, G0. tauto.
    + destruct (H1 eq_refl) as [O1 C1]. rewrite O1, C1 in G1.
      destruct (f_step o e (cf_proc s)) as [[r e1] p1] eqn:S. pose proof (reach_step _ _ _ _ _ _ _ _ R Ho S) as R1.
      assert (Hp : p_held p1 = p_held (cf_proc s) \/ r = Ok tt /\ exists f, p_held p1 = f :: p_held (cf_proc s)).
      { destruct o; cbn [allowed] in A; try contradiction; cbn [f_step] in S.
        - destruct (create_file size cap0 e (p_kernel (cf_proc s))) as [[[d r0] e2] k]. destruct r0; injection S as <- _ <-; cbn [p_held]; eauto.
        - destruct (open_file c e (p_kernel (cf_proc s))) as [[r0 e2] k]. destruct r0; injection S as <- _ <-; cbn [p_held]; eauto. }
      assert (Hr : match r with Ok _ => exists f, p_held p1 = f :: p_held (cf_proc s) | _ => p_held p1 = p_held (cf_proc s) end).
      { destruct o; cbn [allowed] in A; try contradiction; cbn [f_step] in S.
        - destruct (create_file size cap0 e (p_kernel (cf_proc s))) as [[[d r0] e2] k]. destruct r0; injection S as <- _ <-; cbn [p_held]; eauto.
        - destruct (open_file c e (p_kernel (cf_proc s))) as [[r0 e2] k]. destruct r0; injection S as <- _ <-; cbn [p_held]; eauto. }
      clear Hp. destruct r as [u| | |]; injection E as <- <-; unfold inv; cbn [cf_cache cf_proc cf_live].
      * destruct Hr as [f Hf]. split; [exact F1|]. split; [exact R1|].
        assert (Ln : len (fc_opened (cf_cache s) ++ [path]) = len (fc_opened (cf_cache s)) + 1) by (unfold len; rewrite app_length; cbn [length]; lia).
        assert (Nl : ~ In (len (fc_opened (cf_cache s))) (cf_live s)) by (intros X; apply I, G in X; lia).
        assert (Nc : ~ In (len (fc_opened (cf_cache s))) (fc_closed (cf_cache s))).
        { destruct F as (_ & _ & _ & Pm & _). intros X.
          assert (Y : In (len (fc_opened (cf_cache s))) (iota (length (fc_opened (cf_cache s))))) by (eapply Permutation_in; [exact Pm|]; rewrite !in_app_iff; auto).
          apply in_iota in Y. unfold len in Y. lia. }
        split; [constructor; assumption|]. split; [rewrite Hf; cbn [length]; lia|].
        intros h. rewrite G1, Ln. cbn [In]. rewrite I, G. split.
        -- intros [<-|[X Y]]; [split; [unfold len; lia|exact Nc]|split; [lia|exact Y]].
        -- intros [X Y]. destruct (Z.eq_dec (len (fc_opened (cf_cache s))) h) as [->|Q]; [now left|right; split; [lia|exact Y]].
      * repeat (split; [first [assumption|congruence]|]). intros h. rewrite I, G, G0. tauto.
      * repeat (split; [first [assumption|congruence]|]). intros h. rewrite I, G, G0. tauto.
      * repeat (split; [first [assumption|congruence]|]). intros h. rewrite I, G, G0. tauto.
  - apply (closing_inv P cap e0 (FRelease path h) e s e' s' K V E).
    + now apply finv_step; [apply V|].
    + cbn [fc_step]. destruct (cache_put 0 (fc_ch (cf_cache s)) h) as [[c t] ev]. cbn [fst fc_closed]. eauto.
    + cbn [fc_step]. destruct (cache_put 0 (fc_ch (cf_cache s)) h) as [[c t] ev]. reflexivity.
  - apply (closing_inv P cap e0 (FEvict path) e s e' s' K V E).
    + now apply finv_step; [apply V|].
    + cbn [fc_step]. destruct (mget beqb path (fc_toks (cf_cache s))) as [t|]; [|exists []; reflexivity]. destruct (cache_take 0 (fc_ch (cf_cache s)) t) as [c r]. cbn [fst fc_closed]. eauto.
    + cbn [fc_step]. destruct (mget beqb path (fc_toks (cf_cache s))) as [t|]; [|reflexivity]. destruct (cache_take 0 (fc_ch (cf_cache s)) t) as [c r]. reflexivity.
  - apply (closing_inv P cap e0 FileCache.FClose e s e' s' K V E).
    + now apply finv_step; [apply V|].
    + cbn [fc_step]. destruct (cache_take_all 0 (fc_ch (cf_cache s))) as [c l]. cbn [fst fc_closed]. eauto.
    + cbn [fc_step]. destruct (cache_take_all 0 (fc_ch (cf_cache s))) as [c l]. reflexivity.
  - destruct V as (F & R & N & L & I). cbn [cf_step] in E. destruct (f_step (FSync (pos h (cf_live s))) e (cf_proc s)) as [[r e1] p1] eqn:S. injection E as <- <-.
    pose proof (reach_step _ _ _ _ _ _ _ _ R (proj1 (K _)) S) as R1.
    assert (H : p_held p1 = p_held (cf_proc s)).
    { cbn [f_step] in S. destruct (nth_error (p_held (cf_proc s)) (pos h (cf_live s))); [|now injection S as _ _ <-].
      destruct (sync_file m e (p_kernel (cf_proc s))) as [[r' e2] k]. now injection S as _ _ <-. }
    unfold inv. cbn [cf_cache cf_proc cf_live]. rewrite H. repeat (split; [assumption|]). exact I.
Qed.
Lemma run_inv P cap e0 os : keeps P -> Forall (opens P) os -> forall e s, inv P cap e0 e s -> cf_ok os e s -> let '(e', s') := cf_run os e s in inv P cap e0 e' s'.
Proof.
  intros K. induction 1 as [|o os Ho _ IH]; intros e s V Hok; [exact V|]. cbn [cf_ok cf_run] in *. destruct Hok as [A Hok].
  destruct (cf_step o e s) as [e1 s1] eqn:E. apply IH; [|exact Hok]. eapply step_inv; [exact K|exact V|exact A|exact Ho|exact E].
Qed.
Lemma new_inv P cap rand e : 0 <= cap < 2 ^ 32 -> rand_ok rand -> inv P cap e e (cf_new cap rand).
Proof.
  intros C R. unfold inv, cf_new. cbn [cf_cache cf_proc cf_live]. split; [now apply finv_new|]. split; [exists [], []; split; [constructor|reflexivity]|].
  split; [constructor|]. split; [reflexivity|]. intros h. reflexivity.
Qed.

(** * C93 *)
(** Whatever system calls fail: after any sequence of acquire, release, evict,
    close and sync operations of callers that release and sync only what they
    hold, no descriptor is open, and every handle the cache keeps or a caller
    holds is a mapped file of its own. *)
Theorem C93_usable : forall handles rand os e, 0 <= handles < 2 ^ 32 -> rand_ok rand -> cf_ok os e (cf_new handles rand) ->
  let '(_, s) := cf_run os e (cf_new handles rand) in
  k_fds (p_kernel (cf_proc s)) = [] /\
  exists file, (forall h, In h (held 0 (fc_ch (cf_cache s))) \/ In h (fc_out (cf_cache s)) ->
                  exists f, file h = Some f /\ nth_error (p_held (cf_proc s)) (pos h (cf_live s)) = Some f /\ In (mf_data f, mf_len f) (k_maps (p_kernel (cf_proc s)))) /\
    (forall h h' f f', In h (cf_live s) -> In h' (cf_live s) -> h <> h' -> file h = Some f -> file h' = Some f' -> mf_data f <> mf_data f').
Proof.
  intros handles rand os e C R Hok.
  pose proof (run_inv (fun _ => True) handles e os ltac:(split; exact I) ltac:(apply Forall_forall; intros [] _; exact I) e _ (new_inv _ _ _ e C R) Hok) as V.
  destruct (cf_run os e (cf_new handles rand)) as [e' s]. destruct V as (F & (fos & rs & _ & E) & N & L & J).
  pose proof (C89_descriptors fos e) as D. pose proof (C89_mapped_until_closed fos e) as M. rewrite E in D, M. split; [exact D|]. destruct M as (M1 & M2 & _).
  exists (fun h => nth_error (p_held (cf_proc s)) (pos h (cf_live s))). split.
  - intros h H. rewrite <- in_app_iff in H. apply J in H. apply pos_lt in H.
    destruct (nth_error (p_held (cf_proc s)) (pos h (cf_live s))) as [f|] eqn:Ef; [|apply nth_error_None in Ef; lia].
    exists f. split; [reflexivity|]. split; [reflexivity|]. eapply M1, nth_error_In, Ef.
  - intros h h' f f' I I' X Ef Ef' Q. apply X.
    assert (P : pos h (cf_live s) = pos h' (cf_live s)).
    { apply (proj1 (NoDup_nth_error (map mf_data (p_held (cf_proc s)))) M2); [rewrite map_length, <- L; now apply pos_lt|].
      rewrite (map_nth_error mf_data _ _ Ef), (map_nth_error mf_data _ _ Ef'). now rewrite Q. }
    pose proof (pos_nth _ _ I) as A. pose proof (pos_nth _ _ I') as A'. rewrite P in A. congruence.
Qed.
Print Assumptions C93_usable.

Lemma live_count P cap e0 e s : inv P cap e0 e s ->
  length (p_held (cf_proc s)) = (length (held 0%Z (fc_ch (cf_cache s))) + length (fc_out (cf_cache s)))%nat.
Proof.
  intros (F & _ & N & L & J). rewrite <- L, <- app_length. apply Permutation_length, NoDup_Permutation; [exact N| |exact J].
  destruct F as (_ & _ & _ & P' & _). rewrite app_assoc in P'. eapply nodup_app_l, (Permutation_NoDup (Permutation_sym P')), iota_nodup.
Qed.
(** When the data files can be used (C89_database: those of every history of a
    database can) and munmap works, the process has exactly as many mappings as
    there are handles in the cache or in the hands of callers, so never more than
    the Handles option and the callers together, whichever other calls fail. *)
Theorem C93_bounded : forall handles rand os e, 0 <= handles < 2 ^ 32 -> rand_ok rand -> cf_ok os e (cf_new handles rand) ->
  Forall (opens usable) os -> snd e = [] ->
  let '(_, s) := cf_run os e (cf_new handles rand) in
  len (k_maps (p_kernel (cf_proc s))) = len (held 0 (fc_ch (cf_cache s))) + len (fc_out (cf_cache s)) /\
  len (k_maps (p_kernel (cf_proc s))) <= handles + len (fc_out (cf_cache s)).
Proof.
  intros handles rand os e C R Hok U Hm.
  pose proof (run_inv usable handles e os ltac:(split; exact I) U e _ (new_inv _ _ _ e C R) Hok) as V.
  destruct (cf_run os e (cf_new handles rand)) as [e' s]. pose proof (live_count _ _ _ _ _ V) as Lc. destruct V as (F & (fos & rs & Fu & E) & _).
  pose proof (C89_no_leak fos e Fu Hm) as M. rewrite E in M.
  assert (A : len (k_maps (p_kernel (cf_proc s))) = len (held 0 (fc_ch (cf_cache s))) + len (fc_out (cf_cache s))).
  { rewrite M. unfold len. rewrite map_length. lia. }
  split; [exact A|]. rewrite A. destruct F as ((_ & C1 & _) & _ & K & _). unfold held, len in *. rewrite map_length. lia.
Qed.
Print Assumptions C93_bounded.
(** Closing a cache whose callers returned everything leaves no mapping. *)
Theorem C93_closed : forall handles rand os e, 0 <= handles < 2 ^ 32 -> rand_ok rand -> cf_ok os e (cf_new handles rand) ->
  Forall (opens usable) os -> snd e = [] -> fc_out (cf_cache (snd (cf_run os e (cf_new handles rand)))) = [] ->
  k_maps (p_kernel (cf_proc (snd (cf_run (os ++ [CFClose]) e (cf_new handles rand))))) = [].
Proof.
  intros handles rand os e C R Hok U Hm Ho.
  assert (Ap : forall os1 os2 e s, cf_run (os1 ++ os2) e s = let '(e, s) := cf_run os1 e s in cf_run os2 e s).
  { induction os1 as [|o os1 IH]; intros os2 e1 s; cbn [app cf_run]; [reflexivity|]. destruct (cf_step o e1 s). apply IH. }
  assert (Ok2 : forall os e s, cf_ok os e s -> cf_ok (os ++ [CFClose]) e s).
  { induction os0 as [|o os0 IH]; intros e1 s H; cbn [app cf_ok] in *; [now destruct (cf_step CFClose e1 s)|]. destruct H as [A H]. split; [exact A|]. destruct (cf_step o e1 s). auto. }
  pose proof (C93_bounded handles rand (os ++ [CFClose]) e C R (Ok2 _ _ _ Hok) ltac:(apply Forall_app; split; [exact U|repeat constructor]) Hm) as B.
  rewrite Ap in *.
  pose proof (run_inv usable handles e os ltac:(split; exact I) U e _ (new_inv _ _ _ e C R) Hok) as V.
  destruct (cf_run os e (cf_new handles rand)) as [e1 s1]. cbn [snd] in Ho. cbn [cf_run] in *.
  assert (Hs : held 0 (fc_ch (cf_cache (snd (cf_step CFClose e1 s1)))) = [] /\ fc_out (cf_cache (snd (cf_step CFClose e1 s1))) = []).
  { cbn [cf_step]. unfold cf_closing. destruct V as ((Ci & _) & _). pose proof (take_all_spec 0 (fc_ch (cf_cache s1)) Ci) as T.
    cbn [fc_step]. destruct (cache_take_all 0 (fc_ch (cf_cache s1))) as [c l]. destruct T as (_ & _ & _ & _ & T & _). cbn [fst].
    destruct (close_handles _ _ _ _) as [[e2 p2] l2]. cbn [snd cf_cache fc_ch fc_out]. split; [exact T|exact Ho]. }
  destruct (cf_step CFClose e1 s1) as [e2 s2]. cbn [snd] in *. destruct Hs as [H1 H2]. destruct B as [B _]. rewrite H1, H2 in B.
  destruct (k_maps (p_kernel (cf_proc s2))); [reflexivity|]. unfold len in B. cbn [length] in B. lia.
Qed.
Print Assumptions C93_closed.

(** ** an example: a cache for one file, three files opened (the second attempt of
    the first: mmap fails), two kept, one evicted by a release *)
Definition ex_rand : stream := fun _ => 0.
Definition ex_p (n : Z) : list Z := [n].
Definition ex_ops : list cfop :=
  [CFAcquire (ex_p 1) (FCreate 79 3); CFAcquire (ex_p 1) (FCreate 79 3); CFSync 0; CFRelease (ex_p 1) 0; CFAcquire (ex_p 2) (FCreate 79 3);
   CFAcquire (ex_p 3) (FOpen (Some ex_file)); CFRelease (ex_p 2) 1].
Definition ex_env : env := ([true; true; false], []).
Example C93_example :
  cf_ok ex_ops ex_env (cf_new 1 ex_rand) /\ Forall (opens usable) ex_ops /\
  let s := snd (cf_run ex_ops ex_env (cf_new 1 ex_rand)) in
  held 0 (fc_ch (cf_cache s)) = [1] /\ fc_out (cf_cache s) = [2] /\ fc_closed (cf_cache s) = [0] /\ length (k_maps (p_kernel (cf_proc s))) = 2%nat.
Proof.
  split; [|split].
  - vm_compute. intuition (auto; discriminate).
  - assert (U : forall size cap g, snd (createFile size cap) = Ok g -> usable (FCreate size cap)) by (intros; eexists; eassumption).
    assert (O : usable (FOpen (Some ex_file))) by (right; eexists; vm_compute; reflexivity).
    unfold ex_ops. repeat apply Forall_cons; try exact I; try exact O; try apply Forall_nil; eapply U; vm_compute; reflexivity.
  - vm_compute. intuition.
Qed.
