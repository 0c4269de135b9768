(** The decoders follow the wire format. *)
From Coq Require Import ZArith List Lia Bool.
From Verif Require Import Base Pb Meta PbRecord PbProofs WireSpec.
Import ListNotations.
Open Scope Z_scope.

Lemma varint_nonneg v l : varint v l -> 0 <= v /\ 1 <= len l.
Proof.
  induction 1 as [b Hb|b v l Hb _ IH]; unfold len in *; cbn [length]; lia.
Qed.

Lemma get_any_ : forall v l, varint v l -> forall r shift acc pre post,
  (length l <= r)%nat -> 0 <= shift -> 0 <= acc < 2 ^ shift ->
  acc + v * 2 ^ shift < 2 ^ 64 ->
  get_varint_ r shift acc (pre ++ l ++ post) (len pre)
  = Ok (acc + v * 2 ^ shift, len pre + len l).
Proof.
  induction 1 as [b Hb|b v l Hb Hv IH]; intros r shift acc pre post Hr Hs Ha Hlt.
  - destruct r as [|r]; [cbn in Hr; lia|].
    assert (0 < 2 ^ shift) as Hp by (apply Z.pow_pos_nonneg; lia).
    pose proof (len_nonneg pre). pose proof (len_nonneg post).
    cbn [get_varint_ app]. rewrite at_pre.
    replace (len (pre ++ b :: post) <=? len pre) with false
      by (symmetry; apply Z.leb_gt; rewrite len_app, len_cons; lia).
    replace (len pre <? 0) with false by (symmetry; apply Z.ltb_ge; lia).
    cbv zeta. rewrite land127. rewrite (Z.mod_small b 128) by lia.
    replace (u64 (b * 2 ^ shift)) with (b * 2 ^ shift)
      by (symmetry; unfold u64; apply Z.mod_small; nia).
    rewrite lor_add by lia. destruct (Z.ltb_spec b 128); [|lia]. reflexivity.
  - destruct r as [|r]; [cbn in Hr; lia|].
    assert (0 < 2 ^ shift) as Hp by (apply Z.pow_pos_nonneg; lia).
    pose proof (len_nonneg pre). pose proof (len_nonneg (l ++ post)).
    destruct (varint_nonneg _ _ Hv) as [Hv0 _].
    cbn [get_varint_ app]. rewrite at_pre.
    set (x := b + 128).
    replace (len (pre ++ x :: l ++ post) <=? len pre) with false
      by (symmetry; apply Z.leb_gt; rewrite len_app, len_cons; lia).
    replace (len pre <? 0) with false by (symmetry; apply Z.ltb_ge; lia).
    cbv zeta. rewrite land127.
    assert (x mod 128 = b) as ->.
    { unfold x. replace (b + 128) with (b + 1 * 128) by lia. rewrite Z.mod_add by lia.
      apply Z.mod_small; lia. }
    assert (H128 : 2 ^ (shift + 7) = 2 ^ shift * 128) by (rewrite Z.pow_add_r by lia; reflexivity).
    assert (0 <= v * 2 ^ shift) by nia.
    replace (u64 (b * 2 ^ shift)) with (b * 2 ^ shift)
      by (symmetry; unfold u64; apply Z.mod_small; nia).
    rewrite lor_add by lia.
    destruct (Z.ltb_spec x 128); [unfold x in *; lia|].
    replace (pre ++ x :: l ++ post) with ((pre ++ [x]) ++ l ++ post) by (rewrite <- app_assoc; reflexivity).
    replace (len pre + 1) with (len (pre ++ [x])) by (rewrite len_app; reflexivity).
    cbn [length] in Hr.
    rewrite (IH r (shift + 7)); [|lia|lia|rewrite H128; nia|rewrite H128; nia].
    rewrite H128. f_equal. f_equal; [nia|]. rewrite len_app, !len_cons, len_nil. lia.
Qed.

Lemma get_any v l pre post : varint64 v l ->
  get_varint (pre ++ l ++ post) (len pre) = Ok (v, len pre + len l).
Proof.
  intros (H & Hv & Hl). unfold get_varint.
  rewrite (get_any_ v l H 10 0 0 pre post Hl); try lia. f_equal. f_equal. lia.
Qed.

Lemma key_get num wt k pre post : key num wt k ->
  get_varint (pre ++ k ++ post) (len pre) = Ok (num * 8 + wt, len pre + len k).
Proof. intros [_ H]. now apply get_any. Qed.

Lemma key_num num wt k : key num wt k -> 0 <= wt < 8 ->
  (num * 8 + wt) mod 8 = wt /\ (num * 8 + wt) / 8 = num /\ i32 num = num /\ 1 <= num /\ 1 <= len k.
Proof.
  intros [Hn (Hv & _)] Hw.
  rewrite Z.add_comm, Z.mod_add, Z.div_add by lia.
  rewrite Z.mod_small, Z.div_small by lia. unfold i32. rewrite Z.mod_small by lia.
  destruct (varint_nonneg _ _ Hv). repeat split; lia.
Qed.

Scheme field_mut := Induction for field Sort Prop
with fields_mut := Induction for fields Sort Prop.

Lemma field_len num c a : field num c a -> 1 <= len a.
Proof.
  intros H; destruct H as [num k v b K V|num k b K L|num k n b K V|num num' k k' body K B K'|num k b K L].
  - pose proof (key_num _ _ _ K ltac:(lia)) as (_&_&_&_&?); rewrite len_app; pose proof (len_nonneg b); lia.
  - pose proof (key_num _ _ _ K ltac:(lia)) as (_&_&_&_&?); rewrite len_app; pose proof (len_nonneg b); lia.
  - pose proof (key_num _ _ _ K ltac:(lia)) as (_&_&_&_&?); rewrite len_app; pose proof (len_nonneg (n ++ b)); lia.
  - pose proof (key_num _ _ _ K ltac:(lia)) as (_&_&_&_&?); rewrite len_app; pose proof (len_nonneg (body ++ k')); lia.
  - pose proof (key_num _ _ _ K ltac:(lia)) as (_&_&_&_&?); rewrite len_app; pose proof (len_nonneg b); lia.
Qed.

Lemma skipn_len (a b : list Z) : skipn (Z.to_nat (len a)) (a ++ b) = b.
Proof. unfold len. rewrite Nat2Z.id. rewrite skipn_app, skipn_all, Nat.sub_diag. reflexivity. Qed.

Lemma len0 (pre : list Z) : len (@nil Z) = 0. Proof. reflexivity. Qed.

(** skip measures exactly one field; the loop of a group ends after its end key *)
Lemma skip_field : forall num c a (F : field num c a) fuel post,
  (2 * length a <= fuel)%nat -> len (a ++ post) < 2 ^ 62 ->
  skip_ fuel (a ++ post) = Ok (len a).
Proof.
  apply (field_mut
    (fun num c a _ => forall fuel post, (2 * length a <= fuel)%nat -> len (a ++ post) < 2 ^ 62 ->
       skip_ fuel (a ++ post) = Ok (len a))
    (fun body _ => forall fuel pre num' k' post, (2 * length body + 1 <= fuel)%nat ->
       key num' 4 k' -> len (pre ++ body ++ k' ++ post) < 2 ^ 62 ->
       group_ fuel (pre ++ body ++ k' ++ post) (len pre) = Ok (len pre + len body + len k'))).
  - intros num k v b K V fuel post Hf Hl.
    destruct (key_num _ _ _ K ltac:(lia)) as (Em & Ed & _ & _ & Hk).
    destruct V as (V & V2 & V3). destruct (varint_nonneg _ _ V) as [_ Hb].
    destruct fuel as [|fuel]; [unfold len in *; rewrite app_length in Hf; lia|].
    cbn [skip_]. destruct (Z.leb_spec (len ((k ++ b) ++ post)) 0) as [H|_].
    { rewrite !len_app in H. pose proof (len_nonneg post). lia. }
    pose proof (key_get num 0 k [] (b ++ post) K) as G. cbn [app] in G. rewrite len_nil in G.
    rewrite <- app_assoc, G. cbn [bind]. rewrite Em. cbn [Z.eqb].
    rewrite Z.add_0_l. rewrite (get_any v b k post (conj V (conj V2 V3))). cbn [bind snd].
    now rewrite len_app.
  - intros num k b K L fuel post Hf Hl.
    destruct (key_num _ _ _ K ltac:(lia)) as (Em & Ed & _ & _ & Hk).
    destruct fuel as [|fuel]; [unfold len in *; rewrite app_length in Hf; lia|].
    cbn [skip_]. destruct (Z.leb_spec (len ((k ++ b) ++ post)) 0) as [H|_].
    { rewrite !len_app in H. pose proof (len_nonneg post). pose proof (len_nonneg b). lia. }
    pose proof (key_get num 1 k [] (b ++ post) K) as G. cbn [app] in G. rewrite len_nil in G.
    rewrite <- app_assoc, G. cbn [bind]. rewrite Em. cbn [Z.eqb Pos.eqb].
    rewrite len_app. replace (len b) with 8 by (unfold len; rewrite L; reflexivity). rewrite Z.add_0_l.
    rewrite i64_id; [reflexivity|]. rewrite !len_app in Hl. pose proof (len_nonneg post).
    pose proof (len_nonneg b). unfold is_i64. lia.
  - intros num k n b K V fuel post Hf Hl.
    destruct (key_num _ _ _ K ltac:(lia)) as (Em & Ed & _ & _ & Hk).
    destruct fuel as [|fuel]; [unfold len in *; rewrite app_length in Hf; lia|].
    pose proof (len_nonneg post). pose proof (len_nonneg b). pose proof (len_nonneg n).
    rewrite !len_app in Hl.
    cbn [skip_]. destruct (Z.leb_spec (len ((k ++ n ++ b) ++ post)) 0) as [H'|_].
    { rewrite !len_app in H'. lia. }
    pose proof (key_get num 2 k [] (n ++ b ++ post) K) as G. cbn [app] in G. rewrite len_nil in G.
    rewrite <- !app_assoc, G. cbn [bind]. rewrite Em. cbn [Z.eqb Pos.eqb].
    rewrite Z.add_0_l, (get_any (len b) n k (b ++ post) V). cbn [bind].
    rewrite (i64_id (len b)) by (unfold is_i64; lia).
    destruct (Z.ltb_spec (len b) 0); [lia|].
    rewrite i64_id by (unfold is_i64; lia). rewrite !len_app. f_equal. lia.
  - intros num num' k k' body K B IH K' fuel post Hf Hl.
    destruct (key_num _ _ _ K ltac:(lia)) as (Em & Ed & _ & _ & Hk).
    destruct (key_num _ _ _ K' ltac:(lia)) as (_ & _ & _ & _ & Hk').
    rewrite !app_length in Hf.
    assert (1 <= length k)%nat by (unfold len in Hk; lia).
    assert (1 <= length k')%nat by (unfold len in Hk'; lia).
    destruct fuel as [|fuel]; [lia|].
    pose proof (len_nonneg post). pose proof (len_nonneg body).
    cbn [skip_]. destruct (Z.leb_spec (len ((k ++ body ++ k') ++ post)) 0) as [H'|_].
    { rewrite !len_app in H'. lia. }
    pose proof (key_get num 3 k [] (body ++ k' ++ post) K) as G. cbn [app] in G. rewrite len_nil in G.
    rewrite <- !app_assoc, G. cbn [bind]. rewrite Em. cbn [Z.eqb Pos.eqb].
    rewrite Z.add_0_l, (IH fuel k num' k' post); auto; [|lia|].
    + rewrite !len_app. f_equal. lia.
    + rewrite !len_app in *. lia.
  - intros num k b K L fuel post Hf Hl.
    destruct (key_num _ _ _ K ltac:(lia)) as (Em & Ed & _ & _ & Hk).
    destruct fuel as [|fuel]; [unfold len in *; rewrite app_length in Hf; lia|].
    cbn [skip_]. destruct (Z.leb_spec (len ((k ++ b) ++ post)) 0) as [H|_].
    { rewrite !len_app in H. pose proof (len_nonneg post). pose proof (len_nonneg b). lia. }
    pose proof (key_get num 5 k [] (b ++ post) K) as G. cbn [app] in G. rewrite len_nil in G.
    rewrite <- app_assoc, G. cbn [bind]. rewrite Em. cbn [Z.eqb Pos.eqb].
    rewrite len_app. replace (len b) with 4 by (unfold len; rewrite L; reflexivity). rewrite Z.add_0_l.
    rewrite i64_id; [reflexivity|]. rewrite !len_app in Hl. pose proof (len_nonneg post).
    pose proof (len_nonneg b). unfold is_i64. lia.
  - intros fuel pre num' k' post Hf K' Hl.
    destruct fuel as [|fuel]; [cbn in Hf; lia|]. cbn [group_ app].
    rewrite (key_get num' 4 k' pre post K'). cbn [bind].
    destruct (key_num _ _ _ K' ltac:(lia)) as (Em & _). rewrite Em. cbn [Z.eqb Pos.eqb].
    rewrite len_nil. f_equal. lia.
  - intros num c a l F IHf B IHb fuel pre num' k' post Hf K' Hl.
    pose proof (field_len _ _ _ F) as Ha.
    assert (1 <= length a)%nat by (unfold len in Ha; lia).
    rewrite app_length in Hf. destruct fuel as [|fuel]; [lia|]. cbn [group_].
    replace (pre ++ (a ++ l) ++ k' ++ post) with (pre ++ a ++ l ++ k' ++ post) in * by (now rewrite <- !app_assoc).
    assert (exists w i, get_varint (pre ++ a ++ l ++ k' ++ post) (len pre) = Ok (w, i) /\ w mod 8 <> 4) as (w & i & G & Hw).
    { clear - F. destruct F as [num k v b K V|num k b K L|num k n b K V|num num' k k'' body K B K'|num k b K L];
        rewrite <- !app_assoc; rewrite (key_get _ _ _ pre _ K);
        destruct (key_num _ _ _ K ltac:(lia)) as (Em & _); eexists _, _; (split; [reflexivity|rewrite Em; lia]). }
    rewrite G. cbn [bind]. destruct (Z.eqb_spec (w mod 8) 4); [lia|].
    rewrite skipn_len. rewrite (IHf fuel (l ++ k' ++ post)); [|lia|rewrite !len_app in *; pose proof (len_nonneg pre); lia].
    cbn [bind].
    rewrite i64_id.
    2:{ rewrite !len_app in Hl. pose proof (len_nonneg pre). pose proof (len_nonneg l).
        pose proof (len_nonneg k'). pose proof (len_nonneg post). unfold is_i64. lia. }
    replace (pre ++ a ++ l ++ k' ++ post) with ((pre ++ a) ++ l ++ k' ++ post) in * by (now rewrite <- !app_assoc).
    replace (len pre + len a) with (len (pre ++ a)) by apply len_app.
    rewrite (IHb fuel (pre ++ a) num' k' post); [|lia|exact K'|exact Hl].
    rewrite !len_app. f_equal. lia.
Qed.

(** what the field switch of a message must do *)
Definition switch_ok {M} (fld : Z -> Z -> list Z -> Z -> M -> option (res (M * Z)))
    (set : Z * content -> M -> option M) : Prop :=
  forall m num c k p pre post wt,
    match c with
    | CVarint v => wt = 0 /\ varint64 v p
    | CFixed64 b => wt = 1 /\ p = b /\ length b = 8%nat
    | CBytes b => wt = 2 /\ exists n, p = n ++ b /\ varint64 (len b) n
    | CGroup => wt = 3
    | CFixed32 b => wt = 5
    end ->
    len (pre ++ k ++ p ++ post) < 2 ^ 62 ->
    match fld num wt (pre ++ k ++ p ++ post) (len pre + len k) m with
    | Some (Ok (m', j)) => set (num, c) m = Some m' /\ j = len pre + len k + len p
    | Some Err => set (num, c) m = None
    | Some _ => False
    | None => set (num, c) m = Some m
    end.

Lemma field_split num c a : field num c a -> exists wt k p,
  a = k ++ p /\ key num wt k /\ 0 <= wt < 8 /\ wt <> 4 /\
  match c with
  | CVarint v => wt = 0 /\ varint64 v p
  | CFixed64 b => wt = 1 /\ p = b /\ length b = 8%nat
  | CBytes b => wt = 2 /\ exists n, p = n ++ b /\ varint64 (len b) n
  | CGroup => wt = 3
  | CFixed32 b => wt = 5
  end.
Proof.
  intros F; destruct F as [num k v b K V|num k b K L|num k n b K V|num num' k k' body K B K'|num k b K L].
  - exists 0, k, b. repeat split; auto; try lia; apply V || apply K.
  - exists 1, k, b. repeat split; auto; try lia; apply K.
  - exists 2, k, (n ++ b). repeat split; auto; try lia; try apply K. exists n; auto.
  - exists 3, k, (body ++ k'). repeat split; auto; try lia; apply K.
  - exists 5, k, b. repeat split; auto; try lia; apply K.
Qed.

Lemma loop_message {M} fld (set : Z * content -> M -> option M) : switch_ok fld set ->
  forall fs l, message fs l -> forall fuel pre m,
  len (pre ++ l) < 2 ^ 62 -> (length l < fuel)%nat ->
  pb_loop fld fuel (pre ++ l) (len pre) m
  = match interp set fs m with Some m' => Ok m' | None => Err end.
Proof.
  intros SW fs l H; induction H as [|num c a fs l F H IH]; intros fuel pre m Hl Hf.
  - cbn [interp]. rewrite app_nil_r. apply pb_done.
  - pose proof (field_len _ _ _ F) as Ha.
    assert (1 <= length a)%nat by (unfold len in Ha; lia).
    rewrite app_length in Hf. destruct fuel as [|fuel]; [lia|].
    pose proof (len_nonneg pre) as Hp. pose proof (len_nonneg l) as Hl0.
    destruct (field_split _ _ _ F) as (wt & k & p & Ea & K & Hw & Hw4 & Hc).
    destruct (key_num _ _ _ K Hw) as (Em & Ed & Ei & Hn & Hk).
    set (d := pre ++ a ++ l) in *.
    assert (Ld : len d = len pre + len a + len l) by (unfold d; rewrite !len_app; lia).
    cbn [pb_loop].
    destruct (Z.leb_spec (len d) (len pre)) as [Hx|_]; [lia|].
    assert (Hd : d = pre ++ k ++ p ++ l) by (unfold d; rewrite Ea, <- !app_assoc; reflexivity).
    rewrite Hd at 1. rewrite (key_get _ _ _ pre (p ++ l) K). cbn [bind].
    rewrite Em, Ed, Ei. destruct (Z.eqb_spec wt 4); [lia|]. destruct (Z.leb_spec num 0); [lia|].
    specialize (SW m num c k p pre l wt Hc ltac:(rewrite <- Hd; exact Hl)).
    rewrite <- Hd in SW. cbn [interp].
    destruct (fld num wt d (len pre + len k) m) as [[[m' j]| | |]|].
    + destruct SW as (-> & ->). cbn [bind fst snd].
      replace (len pre + len k + len p) with (len (pre ++ a)) by (rewrite Ea, !len_app; lia).
      unfold d. rewrite app_assoc. apply IH; [rewrite <- app_assoc; exact Hl|lia].
    + rewrite SW. reflexivity.
    + destruct SW.
    + destruct SW.
    + rewrite SW. replace (skipn (Z.to_nat (len pre)) d) with (a ++ l) by (symmetry; apply skipn_len). unfold skip.
      rewrite (skip_field _ _ _ F).
      2:{ rewrite app_length. lia. }
      2:{ rewrite len_app. lia. }
      cbn [bind]. destruct (Z.ltb_spec (len a) 0); [lia|].
      rewrite i64_id by (unfold is_i64; lia).
      destruct (Z.ltb_spec (len d) (len pre + len a)); [lia|].
      replace (len pre + len a) with (len (pre ++ a)) by (rewrite len_app; lia).
      unfold d. rewrite app_assoc. apply IH; [rewrite <- app_assoc; exact Hl|lia].
Qed.

Lemma get_payload v p pre k post : varint64 v p ->
  get_varint (pre ++ k ++ p ++ post) (len pre + len k) = Ok (v, len pre + len k + len p).
Proof.
  intros V. rewrite app_assoc. replace (len pre + len k) with (len (pre ++ k)) by apply len_app.
  now apply get_any.
Qed.

Lemma sub_mid (a b c : list Z) : sub (len a) (len b) (a ++ b ++ c) = b.
Proof.
  unfold sub. rewrite skipn_len. unfold len. rewrite Nat2Z.id, firstn_app, Nat.sub_diag, firstn_all.
  now rewrite app_nil_r.
Qed.

Lemma get_bytes_payload n b pre k post : varint64 (len b) n ->
  len (pre ++ k ++ (n ++ b) ++ post) < 2 ^ 62 ->
  get_bytes (pre ++ k ++ (n ++ b) ++ post) (len pre + len k) = Ok (b, len pre + len k + len (n ++ b)).
Proof.
  intros V Hl. unfold get_bytes.
  replace (pre ++ k ++ (n ++ b) ++ post) with (pre ++ k ++ n ++ b ++ post) in * by (now rewrite <- !app_assoc).
  rewrite (get_payload (len b) n pre k (b ++ post) V). cbn [bind].
  rewrite !len_app in Hl.
  pose proof (len_nonneg post). pose proof (len_nonneg b). pose proof (len_nonneg n).
  pose proof (len_nonneg k). pose proof (len_nonneg pre).
  rewrite (i64_id (len b)) by (unfold is_i64; lia).
  destruct (Z.ltb_spec (len b) 0); [lia|].
  rewrite i64_id by (unfold is_i64; lia).
  destruct (Z.ltb_spec (len (pre ++ k ++ n ++ b ++ post)) (len pre + len k + len n + len b)) as [Hx|_].
  { rewrite !len_app in Hx. lia. }
  destruct (Z.ltb_spec (len pre + len k + len n + len b) (len pre + len k + len n)); [lia|].
  replace (pre ++ k ++ n ++ b ++ post) with ((pre ++ k ++ n) ++ b ++ post) by (now rewrite <- !app_assoc).
  replace (len pre + len k + len n + len b - (len pre + len k + len n)) with (len b) by lia.
  replace (len pre + len k + len n) with (len (pre ++ k ++ n)) by (rewrite !len_app; lia).
  rewrite sub_mid. f_equal. f_equal. rewrite !len_app. lia.
Qed.

Lemma get_fixed_payload b pre k post : length b = 8%nat ->
  get_fixed64 (pre ++ k ++ b ++ post) (len pre + len k) = Ok (unle b, len pre + len k + len b).
Proof.
  intros L. unfold get_fixed64. assert (len b = 8) as Lb by (unfold len; rewrite L; reflexivity).
  pose proof (len_nonneg post).
  destruct (Z.ltb_spec (len (pre ++ k ++ b ++ post)) (len pre + len k + 8)) as [Hx|_].
  { rewrite !len_app in Hx. lia. }
  replace (pre ++ k ++ b ++ post) with ((pre ++ k) ++ b ++ post) by (now rewrite <- !app_assoc).
  rewrite Lb. replace (len pre + len k) with (len (pre ++ k)) by apply len_app.
  rewrite <- Lb at 1. now rewrite sub_mid.
Qed.

Lemma num_cases (n : Z) : n = 1 \/ n = 2 \/ n = 3 \/ n = 4 \/ n = 5 \/ n = 6 \/ n = 7 \/ n = 8 \/ n = 9 \/ n = 10 \/
  (n =? 1 = false /\ n =? 2 = false /\ n =? 3 = false /\ n =? 4 = false /\ n =? 5 = false /\
   n =? 6 = false /\ n =? 7 = false /\ n =? 8 = false /\ n =? 9 = false /\ n =? 10 = false).
Proof. rewrite !Z.eqb_neq. lia. Qed.

Lemma set_meta_other n c m : n =? 1 = false /\ n =? 2 = false /\ n =? 3 = false /\ n =? 4 = false /\ n =? 5 = false ->
  set_meta (n, c) m = Some m.
Proof.
  rewrite !Z.eqb_neq. intros H. unfold set_meta.
  destruct n as [|p|p]; auto; do 4 (destruct p as [p|p|]; try (exfalso; lia); auto).
Qed.

Lemma set_drec_other n c m : (n =? 1 = false /\ n =? 2 = false /\ n =? 3 = false /\ n =? 4 = false /\ n =? 5 = false /\
   n =? 6 = false /\ n =? 7 = false /\ n =? 8 = false /\ n =? 9 = false /\ n =? 10 = false) ->
  set_drec (n, c) m = Some m.
Proof.
  rewrite !Z.eqb_neq. intros H. unfold set_drec. destruct m.
  destruct n as [|p|p]; auto; do 5 (destruct p as [p|p|]; try (exfalso; lia); auto).
Qed.

Lemma meta_switch : switch_ok meta_field set_meta.
Proof.
  intros m num c k p pre post wt Hc Hl. unfold meta_field. destruct m as [a b s e f].
  assert (num = 1 \/ num = 2 \/ num = 3 \/ num = 4 \/ num = 5 \/
    (num =? 1 = false /\ num =? 2 = false /\ num =? 3 = false /\ num =? 4 = false /\ num =? 5 = false)) as N.
  { rewrite !Z.eqb_neq. lia. }
  destruct N as [->|[->|[->|[->|[->|N]]]]];
    [| | | | |pose proof (set_meta_other num c (Meta a b s e f) N); destruct N as (-> & -> & -> & -> & ->); assumption].
  all: cbn [Z.eqb Pos.eqb].
  all: try (destruct c as [v|v|v| |v];
    [ destruct Hc as [-> V]; cbn [Z.eqb negb]; rewrite (get_payload v p pre k post V); cbn [bind fst snd]; split; reflexivity
    | destruct Hc as [-> _]; reflexivity
    | destruct Hc as [-> _]; reflexivity
    | subst wt; reflexivity
    | subst wt; reflexivity ]).
Qed.

Lemma drec_switch : switch_ok drec_field set_drec.
Proof.
  intros m num c k p pre post wt Hc Hl. unfold drec_field. destruct m as [a b s e f g h i l n].
  pose proof (num_cases num) as N.
  destruct N as [->|[->|[->|[->|[->|[->|[->|[->|[->|[->|N]]]]]]]]]];
    [| | | | | | | | | |pose proof (set_drec_other num c (DRec a b s e f g h i l n) N);
     destruct N as (-> & -> & -> & -> & -> & -> & -> & -> & -> & ->); assumption].
  all: cbn [Z.eqb Pos.eqb].
  all: destruct c as [v|v|v| |v];
    [ destruct Hc as [-> V]; cbn [Z.eqb Pos.eqb negb]; try reflexivity;
      rewrite (get_payload v p pre k post V); cbn [bind fst snd]; split; reflexivity
    | destruct Hc as (-> & -> & L); cbn [Z.eqb Pos.eqb negb]; try reflexivity;
      rewrite (get_fixed_payload v pre k post L); cbn [bind fst snd]; split; reflexivity
    | destruct Hc as (-> & n' & -> & V); cbn [Z.eqb Pos.eqb negb]; try reflexivity;
      rewrite (get_bytes_payload n' v pre k post V Hl); cbn [bind fst snd]; split; reflexivity
    | subst wt; reflexivity
    | subst wt; reflexivity ].
Qed.

Lemma meta_unmarshal_message fs l : message fs l -> len l < 2 ^ 62 ->
  meta_unmarshal l = match interp set_meta fs meta_zero with Some m => Ok m | None => Err end.
Proof.
  intros H Hl. unfold meta_unmarshal, pb_unmarshal.
  apply (loop_message _ _ meta_switch fs l H (S (length l)) [] meta_zero); [exact Hl|lia].
Qed.

Lemma drec_unmarshal_message fs l : message fs l -> len l < 2 ^ 62 ->
  drec_unmarshal l = match interp set_drec fs drec_zero with Some m => Ok m | None => Err end.
Proof.
  intros H Hl. unfold drec_unmarshal, pb_unmarshal.
  apply (loop_message _ _ drec_switch fs l H (S (length l)) [] drec_zero); [exact Hl|lia].
Qed.
