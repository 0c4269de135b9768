(** Go maps as association lists (iteration order is never used). *)
From Coq Require Import ZArith List Bool.
From Verif Require Import Base.
Import ListNotations.
Open Scope Z_scope.

(** m[k], v, ok form *)
Fixpoint mget {K V} (eqb : K -> K -> bool) (k : K) (m : list (K * V)) : option V :=
  match m with
  | [] => None
  | (k', v) :: r => if eqb k k' then Some v else mget eqb k r
  end.

(** delete(m, k) *)
Definition mdel {K V} (eqb : K -> K -> bool) (k : K) (m : list (K * V)) : list (K * V) :=
  filter (fun kv => negb (eqb k (fst kv))) m.

(** m[k] = v *)
Definition mput {K V} (eqb : K -> K -> bool) (k : K) (v : V) (m : list (K * V)) : list (K * V) :=
  (k, v) :: mdel eqb k m.

Definition eqb_ok {K} (eqb : K -> K -> bool) : Prop :=
  forall a b, eqb a b = true <-> a = b.

Lemma eqb_ok_Z : eqb_ok Z.eqb.
Proof. intros a b. apply Z.eqb_eq. Qed.
Lemma eqb_ok_bytes : eqb_ok beqb.
Proof. intros a b. apply beqb_eq. Qed.

Lemma eqb_refl_ {K} (eqb : K -> K -> bool) : eqb_ok eqb -> forall k, eqb k k = true.
Proof. intros H k. now apply H. Qed.
Lemma eqb_neq_ {K} (eqb : K -> K -> bool) : eqb_ok eqb -> forall a b, a <> b -> eqb a b = false.
Proof. intros H a b Hn. destruct (eqb a b) eqn:E; [|reflexivity]. apply H in E. contradiction. Qed.

Lemma mget_del {K V} eqb (H : @eqb_ok K eqb) k k' (m : list (K * V)) :
  mget eqb k' (mdel eqb k m) = if eqb k k' then None else mget eqb k' m.
Proof.
  unfold mdel. induction m as [|[a v] m IH]; cbn.
  - now destruct (eqb k k').
  - destruct (eqb k a) eqn:E; cbn.
    + rewrite IH. apply H in E. subst a. destruct (eqb k k') eqn:E2; [reflexivity|].
      rewrite (eqb_neq_ _ H k' k); [reflexivity|]. intros ->. rewrite eqb_refl_ in E2; [discriminate|assumption].
    + rewrite IH. destruct (eqb k' a) eqn:E2; [|reflexivity].
      apply H in E2. subst a. rewrite E. reflexivity.
Qed.

Lemma mget_put {K V} eqb (H : @eqb_ok K eqb) k k' v (m : list (K * V)) :
  mget eqb k' (mput eqb k v m) = if eqb k k' then Some v else mget eqb k' m.
Proof.
  unfold mput. cbn. rewrite mget_del by assumption.
  destruct (eqb k' k) eqn:E.
  - apply H in E. subst. now rewrite eqb_refl_.
  - destruct (eqb k k') eqn:E2; [|reflexivity].
    apply H in E2. subst. rewrite eqb_refl_ in E by assumption. discriminate.
Qed.

Lemma mget_put_same {K V} eqb (H : @eqb_ok K eqb) k v (m : list (K * V)) :
  mget eqb k (mput eqb k v m) = Some v.
Proof. rewrite mget_put by assumption. now rewrite eqb_refl_. Qed.
Lemma mget_put_other {K V} eqb (H : @eqb_ok K eqb) k k' v (m : list (K * V)) : k <> k' ->
  mget eqb k' (mput eqb k v m) = mget eqb k' m.
Proof. intros. rewrite mget_put by assumption. now rewrite eqb_neq_. Qed.
Lemma mget_del_same {K V} eqb (H : @eqb_ok K eqb) k (m : list (K * V)) :
  mget eqb k (mdel eqb k m) = None.
Proof. rewrite mget_del by assumption. now rewrite eqb_refl_. Qed.
Lemma mget_del_other {K V} eqb (H : @eqb_ok K eqb) k k' (m : list (K * V)) : k <> k' ->
  mget eqb k' (mdel eqb k m) = mget eqb k' m.
Proof. intros. rewrite mget_del by assumption. now rewrite eqb_neq_. Qed.
