(** Invariant of Dump.v. *)
From Coq Require Import ZArith List Bool Lia Permutation.
From Verif Require Import Base Cache LockPoolProofs QueueProofs Pb PbRecord Dump.
Import ListNotations.
Open Scope Z_scope.

Definition live (c : dcall) : Z := match c with DFinished _ _ => 0 | _ => 1 end.
Definition unrun (c : dcall) : Z := match c with DPending _ => 1 | _ => 0 end.
Definition cbuf (c : dcall) : list nat := match c with DPending b => [b] | DCounted b _ _ => [b] | DFinished _ _ => [] end.
Definition inl (m : dmain) : Z := match m with DInline _ _ => 1 | _ => 0 end.
Definition mbuf (m : dmain) : list nat := match m with DInline b _ => [b] | _ => [] end.
(** buffers in use by a queued write *)
Definition owned (s : dstate) : list nat := flat_map cbuf (m_calls s) ++ mbuf (m_main s).

Record dinv (recs : list (list Z * drecord)) (s : dstate) : Prop := {
  di_queued : exists rest, map d_args recs = m_queued s ++ rest /\
    match m_main s with
    | DIter todo | DInline _ todo => rest = map d_args todo /\ m_cancelled s = false
    | _ => m_cancelled s = false -> rest = []
    end;
  di_wg : m_wg s = sumz live (m_calls s) + inl (m_main s);
  di_writes : m_writes s = sumz (fun r => b2z (fst r)) (m_results s);
  di_skips : m_skips s + inl (m_main s) = sumz (fun r => b2z (negb (fst r))) (m_results s);
  di_errors : m_errors s + inl (m_main s) = sumz (fun r => b2z (snd r)) (m_results s);
  di_run : sumz unrun (m_calls s) + len (m_results s) = len (m_queued s);
  di_bufs : NoDup (m_pool s ++ owned s);
  di_lt : forall b, In b (m_pool s ++ owned s) -> (b < m_nbuf s)%nat;
  di_done : forall w k e, m_main s = DDone w k e -> m_wg s = 0 /\ w = m_writes s /\ k = m_skips s /\ e = m_errors s
}.

Lemma cbuf_set n t l y : nth_error l n = Some y -> Permutation (flat_map cbuf (set_nth n t l) ++ cbuf y) (cbuf t ++ flat_map cbuf l).
Proof.
  revert n. induction l as [|z l IH]; intros [|n] H; cbn [nth_error] in H; try discriminate.
  - injection H as ->. cbn [set_nth flat_map]. rewrite <- app_assoc. apply Permutation_app_head. apply Permutation_app_comm.
  - cbn [set_nth flat_map]. rewrite <- app_assoc, (IH n H), !app_assoc. apply Permutation_app_tail. apply Permutation_app_comm.
Qed.

Lemma dinv_init recs pool nbuf : NoDup pool -> (forall b, In b pool -> (b < nbuf)%nat) -> dinv recs (d_begin recs pool nbuf).
Proof.
  intros H1 H2. constructor; cbn [Dump.d_begin m_main m_calls m_wg m_writes m_skips m_errors m_pool m_nbuf m_queued m_results m_cancelled]; try reflexivity.
  - exists (map d_args recs). auto.
  - unfold owned. cbn. now rewrite app_nil_r.
  - unfold owned. cbn. rewrite app_nil_r. assumption.
  - discriminate.
Qed.

(** what Get does to the ownership of buffers *)
Lemma get_perm pool n b pool' n' rest : d_get pool n b pool' n' ->
  NoDup (pool ++ rest) -> (forall x, In x (pool ++ rest) -> (x < n)%nat) ->
  NoDup (pool' ++ rest ++ [b]) /\ (forall x, In x (pool' ++ rest ++ [b]) -> (x < n')%nat).
Proof.
  intros G N L. destruct G as [p1 b p2 n|pool n|p1 b p2 n].
  - assert (P : Permutation ((p1 ++ b :: p2) ++ rest) ((p1 ++ p2) ++ rest ++ [b])).
    { rewrite <- !app_assoc. apply Permutation_app_head. cbn. rewrite app_assoc. apply Permutation_cons_append. }
    split; [now rewrite <- P|]. intros x Hx. apply L. now rewrite P.
  - rewrite app_assoc. split.
    + apply (Permutation_NoDup (l := n :: pool ++ rest)); [apply Permutation_cons_append|]. constructor; [|assumption].
      intros X. specialize (L n X). lia.
    + intros x Hx. apply in_app_or in Hx. destruct Hx as [Hx|[<-|[]]]; [specialize (L x Hx)|]; lia.
  - assert (P : Permutation ((p1 ++ b :: p2) ++ rest) (b :: (p1 ++ p2) ++ rest)).
    { rewrite <- !app_assoc. symmetry. cbn. apply Permutation_middle. }
    assert (N' : NoDup (b :: (p1 ++ p2) ++ rest)) by now rewrite <- P.
    assert (L' : forall x, In x ((p1 ++ p2) ++ rest) -> (x < n)%nat) by (intros x Hx; apply L; rewrite P; now right).
    inversion N' as [|? ? X1 X2]; subst. rewrite (app_assoc (p1 ++ p2)). split.
    + apply (Permutation_NoDup (l := n :: (p1 ++ p2) ++ rest)); [apply Permutation_cons_append|]. constructor; [|assumption].
      intros X. specialize (L' n X). lia.
    + intros x Hx. apply in_app_or in Hx. destruct Hx as [Hx|[<-|[]]]; [specialize (L' x Hx)|]; lia.
Qed.

Ltac proj := cbn [m_main m_calls m_wg m_writes m_skips m_errors m_pool m_nbuf m_queued m_results m_cancelled].

Lemma dinv_step recs s s' : dinv recs s -> d_step s s' -> dinv recs s'.
Proof.
  intros [Q W WR SK ER RN B L D] St.
  destruct St as [s todo Em Hne|s mr todo b pool n Em G|s mr todo b pool n Em G|s b todo Em|s c b w e Ec|s c b w e Ec|s Em|s Em Hw].
  - rewrite Em in *. cbn [inl] in *.
    constructor; proj; cbn [inl]; auto.
    + destruct Q as (rest & Q1 & Q2). exists rest. split; [assumption|discriminate].
    + unfold owned in *. proj. now rewrite Em in B.
    + unfold owned in *. proj. rewrite Em in L. exact L.
    + discriminate.
  - rewrite Em in *. cbn [inl] in *.
    assert (HB : Permutation (pool ++ owned s ++ [b]) (pool ++ (flat_map cbuf (m_calls s ++ [DPending b]) ++ mbuf (DIter todo)))).
    { apply Permutation_app_head. unfold owned. rewrite Em. rewrite flat_map_app. cbn. now rewrite !app_nil_r. }
    destruct (get_perm _ _ _ _ _ (owned s) G B L) as [N1 N2].
    constructor; proj; cbn [inl]; auto.
    + destruct Q as (rest & Q1 & Q2 & Q3). subst rest. exists (map d_args todo). split; [|auto].
      rewrite Q1. cbn. now rewrite <- app_assoc.
    + rewrite sumz_app. cbn. lia.
    + rewrite sumz_app, len_app. cbn [sumz unrun]. change (len [d_args mr]) with 1. lia.
    + unfold owned. proj. rewrite <- HB. exact N1.
    + intros x Hx. unfold owned in Hx. revert Hx. proj. intros Hx. rewrite <- HB in Hx. auto.
    + discriminate.
  - rewrite Em in *. cbn [inl] in *.
    assert (HB : Permutation (pool ++ owned s ++ [b]) (pool ++ (flat_map cbuf (m_calls s) ++ mbuf (DInline b todo)))).
    { apply Permutation_app_head. unfold owned. rewrite Em. cbn. now rewrite !app_nil_r. }
    destruct (get_perm _ _ _ _ _ (owned s) G B L) as [N1 N2].
    constructor; proj; cbn [inl]; auto.
    + destruct Q as (rest & Q1 & Q2 & Q3). subst rest. exists (map d_args todo). split; [|auto].
      rewrite Q1. cbn. now rewrite <- app_assoc.
    + lia.
    + rewrite sumz_app. cbn. lia.
    + rewrite sumz_app. cbn. lia.
    + rewrite sumz_app. cbn. lia.
    + rewrite !len_app. change (len [d_args mr]) with 1. change (len [(false, true)]) with 1. lia.
    + unfold owned. proj. rewrite <- HB. exact N1.
    + intros x Hx. unfold owned in Hx. revert Hx. proj. intros Hx. rewrite <- HB in Hx. auto.
    + discriminate.
  - assert (HB : Permutation (m_pool s ++ owned s) ((m_pool s ++ [b]) ++ flat_map cbuf (m_calls s) ++ mbuf (DIter todo))).
    { unfold owned. rewrite Em. cbn [mbuf]. rewrite app_nil_r, <- app_assoc. apply Permutation_app_head. apply Permutation_app_comm. }
    rewrite Em in *. cbn [inl] in *. constructor; proj; cbn [inl]; auto; try lia.
    + unfold owned. proj. rewrite <- HB. exact B.
    + intros x Hx. unfold owned in Hx. revert Hx. proj. intros Hx. rewrite <- HB in Hx. auto.
    + discriminate.
  - pose proof (cbuf_set c (DCounted b w e) _ _ Ec) as P. cbn [cbuf] in P.
    assert (P' : Permutation (flat_map cbuf (set_nth c (DCounted b w e) (m_calls s))) (flat_map cbuf (m_calls s))).
    { apply (Permutation_app_inv_r [b]). rewrite P. apply Permutation_app_comm. }
    assert (HB : Permutation (m_pool s ++ owned s) (m_pool s ++ flat_map cbuf (set_nth c (DCounted b w e) (m_calls s)) ++ mbuf (m_main s))).
    { apply Permutation_app_head. unfold owned. now rewrite P'. }
    constructor; proj; auto.
    + rewrite (sumz_set _ _ _ _ _ Ec). cbn [live]. lia.
    + rewrite sumz_app. cbn. lia.
    + rewrite sumz_app. cbn. lia.
    + rewrite sumz_app. cbn. lia.
    + rewrite (sumz_set _ _ _ _ _ Ec), len_app. cbn [unrun]. change (len [(w, e)]) with 1. lia.
    + unfold owned. proj. rewrite <- HB. exact B.
    + intros x Hx. unfold owned in Hx. revert Hx. proj. intros Hx. rewrite <- HB in Hx. auto.
    + intros w' k' e' E. exfalso. destruct (D _ _ _ E) as (D1 & _).
      assert (live (DPending b) <= sumz live (m_calls s)) by (apply (sumz_ge live (m_calls s) c); [intros []; cbn; lia|assumption]).
      cbn [live] in *. assert (0 <= inl (m_main s)) by (destruct (m_main s); cbn; lia). lia.
  - pose proof (cbuf_set c (DFinished w e) _ _ Ec) as P. cbn [cbuf] in P. cbn [app] in P.
    assert (HB : Permutation (m_pool s ++ owned s) ((m_pool s ++ [b]) ++ flat_map cbuf (set_nth c (DFinished w e) (m_calls s)) ++ mbuf (m_main s))).
    { unfold owned. rewrite <- P, <- !app_assoc. apply Permutation_app_head.
      rewrite !app_assoc. apply Permutation_app_tail. apply Permutation_app_comm. }
    constructor; proj; auto.
    + rewrite (sumz_set _ _ _ _ _ Ec). cbn [live]. lia.
    + rewrite (sumz_set _ _ _ _ _ Ec). cbn [unrun]. lia.
    + unfold owned. proj. rewrite <- HB. exact B.
    + intros x Hx. unfold owned in Hx. revert Hx. proj. intros Hx. rewrite <- HB in Hx. auto.
    + intros w' k' e' E. exfalso. destruct (D _ _ _ E) as (D1 & _).
      assert (live (DCounted b w e) <= sumz live (m_calls s)) by (apply (sumz_ge live (m_calls s) c); [intros []; cbn; lia|assumption]).
      cbn [live] in *. assert (0 <= inl (m_main s)) by (destruct (m_main s); cbn; lia). lia.
  - rewrite Em in *. cbn [inl] in *.
    constructor; proj; cbn [inl]; auto.
    + destruct Q as (rest & Q1 & Q2 & _). exists rest. split; [assumption|auto].
    + unfold owned in *. proj. now rewrite Em in B.
    + unfold owned in *. proj. rewrite Em in L. exact L.
    + discriminate.
  - rewrite Em in *. cbn [inl] in *.
    constructor; proj; cbn [inl]; auto.
    + unfold owned in *. proj. now rewrite Em in B.
    + unfold owned in *. proj. rewrite Em in L. exact L.
    + intros w k e E. injection E as <- <- <-. auto.
Qed.

Lemma dinv_reach recs pool nbuf s : NoDup pool -> (forall b, In b pool -> (b < nbuf)%nat) ->
  d_reach recs pool nbuf s -> dinv recs s.
Proof. intros H1 H2. induction 1; [now apply dinv_init|eapply dinv_step; eauto]. Qed.

(** all calls finished when the counter is zero *)
Lemma wg_zero recs s c x : dinv recs s -> m_wg s = 0 -> nth_error (m_calls s) c = Some x -> exists w e, x = DFinished w e.
Proof.
  intros H H0 Hc. pose proof (di_wg _ _ H) as W.
  assert (live x <= sumz live (m_calls s)) by (apply (sumz_ge live (m_calls s) c); [intros []; cbn; lia|assumption]).
  assert (0 <= inl (m_main s)) by (destruct (m_main s); cbn; lia).
  destruct x; cbn [live] in *; try lia. eauto.
Qed.
