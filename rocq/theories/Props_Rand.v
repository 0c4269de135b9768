(** C34, C24, C93 with the generator of the program. *)
From Coq Require Import ZArith List Lia Bool Permutation.
From Verif Require Import Base Maps Cache CacheProofs PcgProofs FileCache FileCacheProofs Sys Props_Sys CachedFiles Props_Cache Props_Mappings.
Import ListNotations.
Open Scope Z_scope.

Lemma lor_bound a b : 0 <= a < 2 ^ 32 -> 0 <= b < 2 ^ 32 -> 0 <= Z.lor a b < 2 ^ 32.
Proof.
  intros A B. assert (N : 0 <= Z.lor a b) by (apply Z.lor_nonneg; lia). split; [exact N|].
  destruct (Z.eq_dec (Z.lor a b) 0) as [->|Z0]; [lia|]. apply Z.log2_lt_pow2; [lia|].
  rewrite Z.log2_lor by lia.
  assert (L : forall x, 0 <= x < 2 ^ 32 -> Z.log2 x < 32).
  { intros x X. destruct (Z.eq_dec x 0) as [->|]; [cbn; lia|]. apply Z.log2_lt_pow2; lia. }
  apply Z.max_lub_lt; auto.
Qed.
(** Whatever the state of a generator is, what it gives is a 32-bit number. *)
Theorem C34_word : forall p n, 0 <= pcg_stream p n < 2 ^ 32.
Proof.
  assert (W : forall p, 0 <= fst (pcg_uint32 p) < 2 ^ 32).
  { intros p. unfold pcg_uint32. cbv zeta. cbn [fst]. set (old := p_state _).
    set (x := u32 (Z.lxor (old / 2 ^ 18) old / 2 ^ 27)). set (r := u32 (old / 2 ^ 59)).
    assert (X : 0 <= x < 2 ^ 32) by (apply Z.mod_pos_bound; lia).
    assert (R : 0 <= r < 2 ^ 32) by (apply Z.mod_pos_bound; lia).
    apply lor_bound; [|apply Z.mod_pos_bound; lia].
    assert (0 < 2 ^ r) by (apply Z.pow_pos_nonneg; lia).
    split; [apply Z.div_pos; lia|]. apply Z.le_lt_trans with x; [apply Z.div_le_upper_bound; nia|lia]. }
  intros p n. revert p. induction n as [|n IH]; intros p; cbn [pcg_stream]; [apply W|apply IH].
Qed.
Print Assumptions C34_word.

(** The cache of the program (cache.go:44 draws from pcg.New(0, 0)). *)
Theorem C24_program : forall handles ops, 0 <= handles < 2 ^ 32 -> fc_ok ops (fc_new handles (pcg_stream (pcg_new 0 0))) ->
  let st := fc_run ops (fc_new handles (pcg_stream (pcg_new 0 0))) in
  Permutation (held 0 (fc_ch st) ++ fc_out st ++ fc_closed st) (map Z.of_nat (seq 0 (length (fc_opened st)))) /\
  len (held 0 (fc_ch st)) <= handles.
Proof. intros handles ops H O. apply C24_handles_conserved; [exact H|intros n; apply C34_word|exact O]. Qed.
Print Assumptions C24_program.
Theorem C93_program : forall handles os e, 0 <= handles < 2 ^ 32 -> cf_ok os e (cf_new handles (pcg_stream (pcg_new 0 0))) ->
  Forall (opens usable) os -> snd e = [] ->
  let '(_, s) := cf_run os e (cf_new handles (pcg_stream (pcg_new 0 0))) in
  len (k_maps (p_kernel (cf_proc s))) <= handles + len (fc_out (cf_cache s)).
Proof.
  intros handles os e H O U M. pose proof (C93_bounded handles (pcg_stream (pcg_new 0 0)) os e H ltac:(intros n; apply C34_word) O U M) as B.
  destruct (cf_run os e _) as [e' s]. apply B.
Qed.
Print Assumptions C93_program.
Example C93_program_ex : cf_ok ex_ops ex_env (cf_new 1 (pcg_stream (pcg_new 0 0))) /\
  len (k_maps (p_kernel (cf_proc (snd (cf_run ex_ops ex_env (cf_new 1 (pcg_stream (pcg_new 0 0)))))))) = 2.
Proof. split; [vm_compute; intuition (auto; discriminate)|vm_compute; reflexivity]. Qed.
