(** Base: bytes, Go integers and byte slices used by all the models.
    A byte is a [Z] in [0,256); a Go string or []byte is [list Z]; a Go int or
    int64 is a [Z].  No Go code is modelled here except the integer
    conversions of the language. *)
From Coq Require Import ZArith List Lia Bool.
Import ListNotations.
Open Scope Z_scope.

(** result of a Go function: a value, an error, a panic, or divergence (a loop
    that never ends). *)
Inductive res (A : Type) : Type :=
| Ok (a : A)
| Err
| Panic
| Diverge.
Arguments Ok {A} _.
Arguments Err {A}.
Arguments Panic {A}.
Arguments Diverge {A}.

Definition bind {A B} (r : res A) (f : A -> res B) : res B :=
  match r with
  | Ok a => f a
  | Err => Err
  | Panic => Panic
  | Diverge => Diverge
  end.
Notation "'do' x <- a ; b" := (bind a (fun x => b))
  (at level 200, x name, a at level 100, b at level 200).

(** a byte / a list of bytes *)
Definition byteb (b : Z) : bool := (0 <=? b) && (b <? 256).
Definition is_byte (b : Z) : Prop := 0 <= b < 256.
Definition is_bytes (l : list Z) : Prop := Forall is_byte l.

(** length of a slice as a Go int *)
Definition len {A} (l : list A) : Z := Z.of_nat (length l).

(** Go conversions uint64(x), int64(x), int32(x), uint16(x), int8(x) *)
Definition u64 (x : Z) : Z := x mod 2 ^ 64.
Definition u32 (x : Z) : Z := x mod 2 ^ 32.
Definition u16 (x : Z) : Z := x mod 2 ^ 16.
Definition i64 (x : Z) : Z := (x + 2 ^ 63) mod 2 ^ 64 - 2 ^ 63.
Definition i32 (x : Z) : Z := (x + 2 ^ 31) mod 2 ^ 32 - 2 ^ 31.
Definition i8 (x : Z) : Z := (x + 2 ^ 7) mod 2 ^ 8 - 2 ^ 7.

Definition is_i64 (x : Z) : Prop := - 2 ^ 63 <= x < 2 ^ 63.
Definition is_u64 (x : Z) : Prop := 0 <= x < 2 ^ 64.
Definition is_u32 (x : Z) : Prop := 0 <= x < 2 ^ 32.

(** big endian encoding of [n] on [k] bytes (encoding/binary.BigEndian) *)
Fixpoint be (k : nat) (n : Z) : list Z :=
  match k with
  | O => []
  | S k' => be k' (n / 256) ++ [n mod 256]
  end.

(** big endian decoding *)
Fixpoint unbe_acc (acc : Z) (l : list Z) : Z :=
  match l with
  | [] => acc
  | b :: r => unbe_acc (acc * 256 + b) r
  end.
Definition unbe (l : list Z) : Z := unbe_acc 0 l.

(** l[off:off+n] for in-range bounds *)
Definition sub (off n : Z) (l : list Z) : list Z :=
  firstn (Z.to_nat n) (skipn (Z.to_nat off) l).

(** overwrite [l] at offset [off] with [new], in place (copy(l[off:], new)) *)
Definition put (off : Z) (new l : list Z) : list Z :=
  firstn (Z.to_nat off) l ++ new ++ skipn (Z.to_nat off + length new) l.

(** l[i] *)
Definition at_ (i : Z) (l : list Z) : Z := nth (Z.to_nat i) l 0.

(** equality test of byte strings *)
Fixpoint beqb (a b : list Z) : bool :=
  match a, b with
  | [], [] => true
  | x :: a', y :: b' => (x =? y) && beqb a' b'
  | _, _ => false
  end.

(** Go's < on strings: lexicographic byte order *)
Fixpoint bltb (a b : list Z) : bool :=
  match a, b with
  | _, [] => false
  | [], _ :: _ => true
  | x :: a', y :: b' => (x <? y) || ((x =? y) && bltb a' b')
  end.

(* ------------------------------------------------------------------ *)
(** ** Lemmas *)

Lemma len_nonneg {A} (l : list A) : 0 <= len l.
Proof. unfold len; lia. Qed.

Lemma len_app {A} (a b : list A) : len (a ++ b) = len a + len b.
Proof. unfold len; rewrite app_length; lia. Qed.

Lemma len_cons {A} (a : A) l : len (a :: l) = 1 + len l.
Proof. unfold len; cbn [length]; lia. Qed.

Lemma len_nil {A} : len (@nil A) = 0.
Proof. reflexivity. Qed.

Lemma len_0_nil {A} (l : list A) : len l = 0 -> l = [].
Proof. destruct l; auto. rewrite len_cons. pose proof (len_nonneg l). lia. Qed.

Lemma i64_id x : is_i64 x -> i64 x = x.
Proof. unfold is_i64, i64; intros H. rewrite Z.mod_small; lia. Qed.

Lemma i64_u64 x : is_i64 x -> i64 (u64 x) = x.
Proof.
  unfold is_i64, i64, u64; intros H.
  rewrite Z.add_mod_idemp_l by lia. rewrite Z.mod_small; lia.
Qed.

Lemma u64_range x : is_u64 (u64 x).
Proof. unfold is_u64, u64; apply Z.mod_pos_bound; lia. Qed.

Lemma i64_range x : is_i64 (i64 x).
Proof.
  unfold is_i64, i64. pose proof (Z.mod_pos_bound (x + 2^63) (2^64)); lia.
Qed.

Lemma be_length k n : length (be k n) = k.
Proof.
  revert n; induction k as [|k IH]; intros n; cbn [be]; auto.
  rewrite app_length, IH; cbn; lia.
Qed.

Lemma be_bytes k n : is_bytes (be k n).
Proof.
  revert n; induction k as [|k IH]; intros n; cbn [be]; constructor || idtac.
  apply Forall_app; split; [apply IH|]. constructor; [|constructor].
  unfold is_byte; apply Z.mod_pos_bound; lia.
Qed.

Lemma unbe_acc_app a l1 l2 : unbe_acc a (l1 ++ l2) = unbe_acc (unbe_acc a l1) l2.
Proof. revert a; induction l1; intros; cbn; auto. Qed.

Lemma unbe_be_mod k n : unbe (be k n) = n mod 256 ^ Z.of_nat k.
Proof.
  revert n; induction k as [|k IH]; intros n.
  - cbn. now rewrite Z.mod_1_r.
  - unfold unbe in *. cbn [be]. rewrite unbe_acc_app, IH. cbn [unbe_acc].
    rewrite Nat2Z.inj_succ, Z.pow_succ_r by lia.
    rewrite Z.rem_mul_r by lia. lia.
Qed.

Lemma unbe_be k n : 0 <= n < 256 ^ Z.of_nat k -> unbe (be k n) = n.
Proof. intros H. rewrite unbe_be_mod. now apply Z.mod_small. Qed.

Lemma unbe_acc_range a l : is_bytes l -> 0 <= a ->
  0 <= unbe_acc a l < (a + 1) * 256 ^ Z.of_nat (length l).
Proof.
  revert a; induction l as [|b l IH]; intros a Hl Ha.
  - cbn; lia.
  - inversion Hl as [|? ? Hb Hl']; subst. unfold is_byte in Hb. cbn [unbe_acc].
    specialize (IH (a*256+b) Hl' ltac:(lia)).
    cbn [length]. rewrite Nat2Z.inj_succ, Z.pow_succ_r by lia.
    assert (0 < 256 ^ Z.of_nat (length l)) by (apply Z.pow_pos_nonneg; lia).
    nia.
Qed.

Lemma unbe_range l : is_bytes l -> 0 <= unbe l < 256 ^ Z.of_nat (length l).
Proof. intros H. pose proof (unbe_acc_range 0 l H). unfold unbe; lia. Qed.

Lemma be_unbe_acc l : forall a, is_bytes l ->
  be (length l) (unbe_acc a l) = l.
Proof.
  induction l as [|x l IH] using rev_ind; intros a H; auto.
  rewrite app_length, unbe_acc_app. cbn [length unbe_acc].
  rewrite Nat.add_1_r. cbn [be].
  apply Forall_app in H as [Hl Hx]. inversion Hx as [|? ? Hb _]; subst.
  unfold is_byte in Hb.
  rewrite Z.div_add_l, (Z.div_small x), Z.add_0_r by lia.
  rewrite IH by auto. f_equal. f_equal.
  rewrite Z.add_comm, Z.mod_add, Z.mod_small; lia.
Qed.

Lemma be_unbe l : is_bytes l -> be (length l) (unbe l) = l.
Proof. apply be_unbe_acc. Qed.

Lemma unbe_inj a b : is_bytes a -> is_bytes b -> length a = length b ->
  unbe a = unbe b -> a = b.
Proof.
  intros Ha Hb Hl H. rewrite <- (be_unbe a Ha), <- (be_unbe b Hb), Hl, H; auto.
Qed.

Lemma beqb_eq a b : beqb a b = true <-> a = b.
Proof.
  revert b; induction a as [|x a IH]; destruct b as [|y b]; cbn; split;
    try discriminate; auto.
  - intros H. apply andb_prop in H as [H1 H2]. apply Z.eqb_eq in H1.
    apply IH in H2. congruence.
  - intros H. injection H as -> ->. rewrite Z.eqb_refl. now apply IH.
Qed.

Lemma beqb_refl a : beqb a a = true.
Proof. now apply beqb_eq. Qed.

Lemma beqb_neq a b : beqb a b = false <-> a <> b.
Proof.
  destruct (beqb a b) eqn:E.
  - apply beqb_eq in E. split; congruence.
  - split; auto. intros _ H. apply beqb_eq in H. congruence.
Qed.

Lemma bytes_eq_dec : forall a b : list Z, {a = b} + {a <> b}.
Proof. apply list_eq_dec, Z.eq_dec. Defined.

Lemma bltb_irrefl a : bltb a a = false.
Proof. induction a; cbn; auto. rewrite Z.ltb_irrefl, Z.eqb_refl; auto. Qed.

Lemma bltb_trans a b c : bltb a b = true -> bltb b c = true -> bltb a c = true.
Proof.
  revert b c; induction a as [|x a IH]; destruct b as [|y b], c as [|z c]; cbn;
    try discriminate; auto.
  intros H1 H2.
  apply orb_true_iff in H1, H2. apply orb_true_iff.
  destruct H1 as [H1|H1], H2 as [H2|H2];
    rewrite ?andb_true_iff, ?Z.ltb_lt, ?Z.eqb_eq in *.
  - left; lia.
  - left; lia.
  - left; lia.
  - right. destruct H1, H2. split; [lia|]. eapply IH; eauto.
Qed.

Lemma bltb_total a b : a <> b -> bltb a b = true \/ bltb b a = true.
Proof.
  revert b; induction a as [|x a IH]; destruct b as [|y b]; cbn; auto; try congruence.
  intros H.
  destruct (Z.lt_trichotomy x y) as [H1|[H1|H1]].
  - left. apply orb_true_iff; left. now apply Z.ltb_lt.
  - subst. rewrite Z.ltb_irrefl, Z.eqb_refl. cbn. apply IH. congruence.
  - right. apply orb_true_iff; left. now apply Z.ltb_lt.
Qed.

Lemma bltb_asym a b : bltb a b = true -> bltb b a = false.
Proof.
  intros H. destruct (bltb b a) eqn:E; auto.
  pose proof (bltb_trans _ _ _ H E) as H'. rewrite bltb_irrefl in H'. discriminate.
Qed.

(** slices *)
Lemma sub_length off n l : 0 <= off -> 0 <= n -> off + n <= len l ->
  length (sub off n l) = Z.to_nat n.
Proof.
  unfold sub, len; intros. rewrite firstn_length, skipn_length. lia.
Qed.

Lemma put_length off new l : 0 <= off -> off + len new <= len l ->
  length (put off new l) = length l.
Proof.
  unfold put, len; intros. rewrite !app_length, firstn_length, skipn_length. lia.
Qed.

Lemma put_len off new l : 0 <= off -> off + len new <= len l ->
  len (put off new l) = len l.
Proof. intros. unfold len. now rewrite put_length. Qed.

Lemma nth_put off new l i : 0 <= off -> off + len new <= len l ->
  nth i (put off new l) 0 =
  if (off <=? Z.of_nat i) && (Z.of_nat i <? off + len new)
  then nth (i - Z.to_nat off) new 0 else nth i l 0.
Proof.
  intros H1 H2. unfold put, len in *.
  destruct (Z.leb_spec off (Z.of_nat i)); cbn [andb].
  - destruct (Z.ltb_spec (Z.of_nat i) (off + Z.of_nat (length new))).
    + rewrite app_nth2; rewrite firstn_length; [|lia].
      rewrite app_nth1; [f_equal; lia|lia].
    + rewrite app_nth2; rewrite firstn_length; [|lia].
      rewrite app_nth2; [|lia].
      replace (i - Nat.min (Z.to_nat off) (length l) - length new)%nat
        with (i - (Z.to_nat off + length new))%nat by lia.
      rewrite <- (firstn_skipn (Z.to_nat off + length new) l) at 2.
      rewrite app_nth2; rewrite firstn_length; [|lia]. f_equal. lia.
  - rewrite app_nth1; [|rewrite firstn_length; lia].
    rewrite <- (firstn_skipn (Z.to_nat off) l) at 2.
    rewrite app_nth1; auto. rewrite firstn_length; lia.
Qed.

Lemma nth_sub off n l i : (i < Z.to_nat n)%nat -> 0 <= off ->
  nth i (sub off n l) 0 = nth (Z.to_nat off + i) l 0.
Proof.
  intros H H0. unfold sub.
  assert (forall (l : list Z) k i, nth i (skipn k l) 0 = nth (k+i) l 0) as E.
  { clear. induction l; intros k i; destruct k; cbn; auto. destruct i; auto. }
  rewrite <- E. generalize (skipn (Z.to_nat off) l) as m. clear - H.
  revert i H. induction (Z.to_nat n) as [|k IH]; intros i H m; [lia|].
  destruct m, i; cbn; auto. apply IH. lia.
Qed.

Lemma list_ext (a b : list Z) : length a = length b ->
  (forall i, (i < length a)%nat -> nth i a 0 = nth i b 0) -> a = b.
Proof. intros. eapply nth_ext; eauto. Qed.

(** reading elsewhere is unaffected by an in-place store *)
Lemma sub_put_other off n off' new l :
  0 <= off -> 0 <= n -> off + n <= len l ->
  0 <= off' -> off' + len new <= len l ->
  off + n <= off' \/ off' + len new <= off ->
  sub off n (put off' new l) = sub off n l.
Proof.
  intros H1 H2 H3 H4 H5 H6. apply list_ext.
  - rewrite !sub_length; auto. rewrite put_len; auto.
  - intros i Hi. rewrite sub_length in Hi; [|auto|auto|rewrite put_len; auto].
    rewrite !nth_sub by auto. rewrite nth_put by auto.
    destruct (Z.leb_spec off' (Z.of_nat (Z.to_nat off + i))); cbn [andb]; auto.
    destruct (Z.ltb_spec (Z.of_nat (Z.to_nat off + i)) (off' + len new)); auto. lia.
Qed.

(** reading the slot written, as a slice *)
Lemma sub_put_same off n new l :
  0 <= off -> len new <= n -> off + n <= len l ->
  sub off n (put off new l) = new ++ skipn (length new) (sub off n l).
Proof.
  intros H1 H2 H3. pose proof (len_nonneg new).
  apply list_ext.
  - rewrite sub_length; [|lia|lia|rewrite put_len; lia].
    rewrite app_length, skipn_length, sub_length by lia. unfold len in *; lia.
  - intros i Hi. rewrite sub_length in Hi; [|lia|lia|rewrite put_len; lia].
    rewrite nth_sub by lia. rewrite nth_put by lia.
    replace (off <=? Z.of_nat (Z.to_nat off + i)) with true by (symmetry; apply Z.leb_le; lia).
    cbn [andb].
    destruct (Z.ltb_spec (Z.of_nat (Z.to_nat off + i)) (off + len new)).
    + rewrite app_nth1 by (unfold len in *; lia). f_equal; lia.
    + rewrite app_nth2 by (unfold len in *; lia).
      assert (forall (l : list Z) k i, nth i (skipn k l) 0 = nth (k+i) l 0) as E.
      { clear. induction l; intros k i; destruct k; cbn; auto. destruct i; auto. }
      rewrite E, nth_sub by (unfold len in *; lia). f_equal. unfold len in *; lia.
Qed.
