(** Proofs about the pixel arithmetic of Draw.v. *)
From Coq Require Import ZArith List Bool Lia.
From Coq Require Import Floats.SpecFloat.
From Verif Require Import Base Merge Draw DrawSpec.
Import ListNotations.
Open Scope Z_scope.

Lemma px_off_view W H v x y : shows_part W H v -> px_off v x y = 4 * ((i_y v + y) * W + (i_x v + x)).
Proof. intros (S & _). unfold px_off. rewrite S. ring. Qed.
Lemma pixel_range W H x y : 0 <= x < W -> 0 <= y < H -> 0 <= 4 * (y * W + x) /\ 4 * (y * W + x) + 4 <= 4 * W * H.
Proof. intros Hx Hy. nia. Qed.
Lemma pixel_distinct W x y x' y' : 0 <= x < W -> 0 <= x' < W -> 0 <= y -> 0 <= y' -> (x, y) <> (x', y') ->
  4 * (y * W + x) + 4 <= 4 * (y' * W + x') \/ 4 * (y' * W + x') + 4 <= 4 * (y * W + x).
Proof.
  intros Hx Hx' Hy Hy' N. destruct (Z.lt_trichotomy y y') as [L|[L|L]]; [left; nia| |right; nia].
  subst y'. assert (x <> x') by congruence. lia.
Qed.
(** storing one pixel *)
Lemma put_pixel W H x y c pix : is_image W H pix -> 0 <= x < W -> 0 <= y < H ->
  repainted W H (fun x' y' => if (x' =? x) && (y' =? y) then Some c else None) pix (put (4 * (y * W + x)) (opaque c) pix).
Proof.
  intros (A & B & L) Hx Hy. pose proof (pixel_range W H x y Hx Hy) as [R1 R2].
  assert (len (opaque c) = 4) as L4 by reflexivity.
  split; [split; [assumption|split; [assumption|rewrite put_len; lia]]|].
  intros x' y' Hx' Hy'. unfold pixel. destruct (Z.eqb_spec x' x); cbn [andb].
  1: destruct (Z.eqb_spec y' y).
  - subst. rewrite sub_put_same by lia. change (length (opaque c)) with 4%nat. unfold sub. change (Z.to_nat 4) with 4%nat.
    rewrite skipn_firstn_comm. cbn [Nat.sub firstn]. apply app_nil_r.
  - pose proof (pixel_range W H x' y' Hx' Hy') as [Q1 Q2]. apply sub_put_other; try lia.
    rewrite L4. apply pixel_distinct; try lia. congruence.
  - pose proof (pixel_range W H x' y' Hx' Hy') as [Q1 Q2]. apply sub_put_other; try lia.
    rewrite L4. apply pixel_distinct; try lia. congruence.
Qed.
Lemma set_px_ok W H v x y c pix : is_image W H pix -> shows_part W H v -> 0 <= x < i_width v -> 0 <= y < i_height v ->
  set_px v x y c pix = Ok (put (4 * ((i_y v + y) * W + (i_x v + x))) (opaque c) pix).
Proof.
  intros Hi V Hx Hy. unfold set_px. rewrite (px_off_view W H) by assumption. destruct V as (_ & V1 & V2 & V3 & V4 & V5 & V6).
  destruct Hi as (A & B & L). pose proof (pixel_range W H (i_x v + x) (i_y v + y) ltac:(lia) ltac:(lia)) as [R1 R2].
  destruct (Z.leb_spec 0 (4 * ((i_y v + y) * W + (i_x v + x)))); [|lia].
  destruct (Z.leb_spec (4 * ((i_y v + y) * W + (i_x v + x)) + 4) (len pix)); [reflexivity|lia].
Qed.
Lemma repainted_refl W H pix : is_image W H pix -> repainted W H (fun _ _ => None) pix pix.
Proof. split; auto. Qed.
Lemma repainted_trans W H f g pix p1 p2 : repainted W H f pix p1 -> repainted W H g p1 p2 ->
  repainted W H (fun x y => match g x y with Some c => Some c | None => f x y end) pix p2.
Proof.
  intros (A & B) (C & D). split; [assumption|]. intros x y Hx Hy. rewrite D by assumption. destruct (g x y); [reflexivity|]. now apply B.
Qed.
Lemma repainted_ext W H f g pix p1 : (forall x y, 0 <= x < W -> 0 <= y < H -> f x y = g x y) -> repainted W H f pix p1 -> repainted W H g pix p1.
Proof. intros E (A & B). split; [assumption|]. intros x y Hx Hy. rewrite <- E by assumption. now apply B. Qed.
Lemma repainted_image W H f pix p1 : repainted W H f pix p1 -> is_image W H p1.
Proof. now intros (A & _). Qed.

(** loops of repaintings *)
Definition over (f g : Z -> Z -> option color) : Z -> Z -> option color := fun x y => match g x y with Some c => Some c | None => f x y end.
Fixpoint layers (n : nat) (a : Z) (g : Z -> Z -> Z -> option color) (x y : Z) : option color :=
  match n with
  | O => None
  | S n' => match layers n' (a + 1) g x y with Some c => Some c | None => g a x y end
  end.
Lemma for_layers W H n : forall a f g pix, is_image W H pix ->
  (forall i p, a <= i < a + Z.of_nat n -> is_image W H p -> exists p', f i p = Ok p' /\ repainted W H (g i) p p') ->
  exists p', for_ n a f pix = Ok p' /\ repainted W H (layers n a g) pix p'.
Proof.
  induction n as [|n IH]; intros a f g pix Hi Hf; cbn [for_ layers].
  - exists pix. split; [reflexivity|now apply repainted_refl].
  - destruct (Hf a pix) as (p1 & E1 & R1); [lia|assumption|]. rewrite E1. cbn [bind].
    destruct (IH (a + 1) f g p1) as (p2 & E2 & R2); [eapply repainted_image; eauto|intros; apply Hf; [lia|assumption]|].
    exists p2. split; [exact E2|]. exact (repainted_trans _ _ _ _ _ _ _ R1 R2).
Qed.
(** when each pixel is painted by at most one [i] *)
Lemma layers_pick n : forall a g x y k, a <= k < a + Z.of_nat n -> (forall i, a <= i < a + Z.of_nat n -> i <> k -> g i x y = None) ->
  layers n a g x y = g k x y.
Proof.
  induction n as [|n IH]; intros a g x y k Hk Hg; [lia|]. cbn [layers]. destruct (Z.eq_dec k a) as [->|N].
  - assert (E : layers n (a + 1) g x y = None).
    { assert (forall i, a + 1 <= i < a + 1 + Z.of_nat n -> g i x y = None) as G by (intros; apply Hg; lia). clear - G. revert G. generalize (a + 1) as b. clear a.
      induction n as [|n IH]; intros b G; cbn [layers]; [reflexivity|]. rewrite (IH (b + 1)) by (intros; apply G; lia). apply G. lia. }
    now rewrite E.
  - rewrite (IH (a + 1) g x y k) by (intros; try apply Hg; lia). destruct (g k x y); [reflexivity|]. apply Hg; lia.
Qed.
Lemma layers_none n : forall a g x y, (forall i, a <= i < a + Z.of_nat n -> g i x y = None) -> layers n a g x y = None.
Proof.
  induction n as [|n IH]; intros a g x y Hg; cbn [layers]; [reflexivity|]. rewrite IH by (intros; apply Hg; lia). apply Hg. lia.
Qed.
(** a horizontal run of pixels set one by one *)
Lemma run_set W H v x0 n y c pix : is_image W H pix -> shows_part W H v -> 0 <= x0 -> x0 + Z.of_nat n <= i_width v -> 0 <= y < i_height v ->
  exists p', for_ n x0 (fun x p => set_px v x y c p) pix = Ok p' /\
  repainted W H (fun x' y' => if in_box (i_x v + x0) (i_y v + y) (Z.of_nat n) 1 x' y' then Some c else None) pix p'.
Proof.
  intros Hi V Hx Hn Hy.
  destruct (for_layers W H n x0 (fun x p => set_px v x y c p) (fun x x' y' => if (x' =? i_x v + x) && (y' =? i_y v + y) then Some c else None) pix Hi) as (p' & E & R).
  { intros i p Hr Hp. eexists. split; [apply (set_px_ok W H); try assumption; lia|]. destruct V as (_ & V1 & V2 & V3 & V4 & V5 & V6).
    apply put_pixel; try assumption; lia. }
  exists p'. split; [exact E|]. eapply repainted_ext; [|exact R]. intros x' y' _ _. cbv beta. unfold in_box.
  destruct (Z.leb_spec (i_x v + x0) x'), (Z.ltb_spec x' (i_x v + x0 + Z.of_nat n)), (Z.leb_spec (i_y v + y) y'), (Z.ltb_spec y' (i_y v + y + 1)); cbn [andb].
  1: { rewrite (layers_pick _ _ _ _ _ (x' - i_x v)); [|lia|intros i _ Ni; destruct (Z.eqb_spec x' (i_x v + i)); [lia|reflexivity]].
       replace (i_x v + (x' - i_x v)) with x' by lia. rewrite Z.eqb_refl. cbn [andb]. destruct (Z.eqb_spec y' (i_y v + y)); [reflexivity|lia]. }
  all: rewrite layers_none; [reflexivity|]; intros i Hr; destruct (Z.eqb_spec x' (i_x v + i)), (Z.eqb_spec y' (i_y v + y)); cbn [andb]; try reflexivity; lia.
Qed.
(** ... and painted by the heat map *)
Lemma paint_run W H y c n : forall k x0 high pix, is_image W H pix -> 0 <= x0 -> x0 + Z.of_nat n <= W -> 0 <= y < H ->
  high - 4 * (y * W + x0) = 4 * Z.of_nat n -> (n <= k)%nat ->
  paint k (4 * (y * W + x0)) high c pix = paint n (4 * (y * W + x0)) high c pix /\
  repainted W H (fun x' y' => if in_box x0 y (Z.of_nat n) 1 x' y' then Some c else None) pix (paint n (4 * (y * W + x0)) high c pix).
Proof.
  induction n as [|n IH]; intros k x0 high pix Hi Hx Hn Hy Hh Hk.
  - split.
    + destruct k; [reflexivity|]. cbn [paint]. replace (4 <=? high - 4 * (y * W + x0)) with false by lia. reflexivity.
    + cbn [paint]. eapply repainted_ext; [|now apply repainted_refl]. intros x' y' _ _. unfold in_box.
      destruct (Z.leb_spec x0 x'), (Z.ltb_spec x' (x0 + Z.of_nat 0)); cbn [andb]; try reflexivity. lia.
  - destruct k as [|k]; [lia|]. cbn [paint]. replace (4 <=? high - 4 * (y * W + x0)) with true by lia.
    pose proof (put_pixel W H x0 y c pix Hi ltac:(lia) Hy) as R0. change [c_r c; c_g c; c_b c; 255] with (opaque c).
    replace (4 * (y * W + x0) + 4) with (4 * (y * W + (x0 + 1))) by ring.
    destruct (IH k (x0 + 1) high (put (4 * (y * W + x0)) (opaque c) pix)) as [E R]; try assumption; try lia; [eapply repainted_image; eauto|].
    split; [exact E|]. eapply repainted_ext; [|exact (repainted_trans _ _ _ _ _ _ _ R0 R)]. intros x' y' _ _. cbv beta. unfold in_box.
    destruct (Z.leb_spec (x0 + 1) x'), (Z.ltb_spec x' (x0 + 1 + Z.of_nat n)), (Z.leb_spec y y'), (Z.ltb_spec y' (y + 1)),
      (Z.leb_spec x0 x'), (Z.ltb_spec x' (x0 + Z.of_nat (S n))), (Z.eqb_spec x' x0), (Z.eqb_spec y' y); cbn [andb]; try reflexivity; lia.
Qed.
Lemma fill_run W H y c x0 w pix : is_image W H pix -> 0 <= x0 -> 0 <= w -> x0 + w <= W -> 0 <= y < H ->
  exists p', fill (4 * (y * W + x0)) (4 * (y * W + x0) + 4 * w) c pix = Ok p' /\
  repainted W H (fun x' y' => if in_box x0 y w 1 x' y' then Some c else None) pix p'.
Proof.
  intros Hi Hx Hw Hxw Hy. unfold fill. destruct Hi as (A & B & L).
  destruct (Z.ltb_spec (len pix) (4 * (y * W + x0) + 4 * w)) as [C|C]; [exfalso; nia|].
  replace ((0 <=? 4 * (y * W + x0)) && (4 * (y * W + x0) <=? 4 * (y * W + x0) + 4 * w) && (4 * (y * W + x0) + 4 * w <=? len pix)) with true by (symmetry; rewrite !andb_true_iff, !Z.leb_le; repeat split; nia).
  eexists. split; [reflexivity|].
  destruct (paint_run W H y c (Z.to_nat w) (Z.to_nat (4 * (y * W + x0) + 4 * w - 4 * (y * W + x0))) x0 (4 * (y * W + x0) + 4 * w) pix) as [E R]; try lia; [repeat split; assumption|].
  rewrite E. replace (Z.of_nat (Z.to_nat w)) with w in R by lia. exact R.
Qed.
(** a drawing *)
Lemma ok_pair {A B} (a c : A) (b d : B) : Ok (a, b) = Ok (c, d) -> c = a /\ d = b.
Proof. intros E. injection E as -> ->. auto. Qed.
Lemma new_image W H m pix : 0 <= W -> 0 <= H -> new_rgb W H = Ok (m, pix) ->
  is_image W H pix /\ m = RGB (4 * W) W H 0 0 /\ forall x y, 0 <= x < W -> 0 <= y < H -> pixel W pix x y = opaque white.
Proof.
  intros HW HH. unfold new_rgb. destruct (Z.ltb_spec (4 * W * H) 0); [discriminate|]. intros E. apply ok_pair in E. destruct E as [-> ->].
  split; [|split; [reflexivity|]].
  - split; [assumption|split; [assumption|]]. unfold len. rewrite repeat_length. rewrite Z2Nat.id; lia.
  - intros x y Hx Hy. pose proof (pixel_range W H x y Hx Hy) as [R1 R2]. unfold pixel. apply list_ext.
    + rewrite sub_length; [reflexivity|lia|lia|]. unfold len. rewrite repeat_length, Z2Nat.id; lia.
    + intros i Hi. rewrite sub_length in Hi; [|lia|lia|unfold len; rewrite repeat_length, Z2Nat.id; lia].
      rewrite nth_sub by lia. change (Z.to_nat 4) with 4%nat in Hi.
      assert (N : forall n k, (k < n)%nat -> nth k (repeat 255 n) 0 = 255) by (induction n; intros [|k] Hk; cbn; try lia; apply IHn; lia).
      rewrite N by lia. destruct i as [|[|[|[|i]]]]; try reflexivity. lia.
Qed.

Lemma for_ext {S} n : forall a (f g : Z -> S -> res S) s, (forall i s, f i s = g i s) -> for_ n a f s = for_ n a g s.
Proof. induction n as [|n IH]; intros a f g s E; cbn [for_]; [reflexivity|]. rewrite E. destruct (g a s); cbn [bind]; auto. Qed.
Lemma for_shift {S} n : forall a k (f : Z -> S -> res S) s, for_ n a (fun x s => f (x + k) s) s = for_ n (a + k) f s.
Proof. induction n as [|n IH]; intros a k f s; cbn [for_]; [reflexivity|]. destruct (f (a + k) s); cbn [bind]; auto. rewrite IH. f_equal. lia. Qed.
(** rows painted one after the other *)
Lemma rows_box x0 y0 w n (col : Z -> color) x y :
  layers n 0 (fun r x y => if in_box x0 (y0 + r) w 1 x y then Some (col r) else None) x y =
  if in_box x0 y0 w (Z.of_nat n) x y then Some (col (y - y0)) else None.
Proof.
  destruct (in_box x0 y0 w (Z.of_nat n) x y) eqn:E; unfold in_box in E.
  - apply andb_true_iff in E. destruct E as [E E4]. apply andb_true_iff in E. destruct E as [E E3]. apply andb_true_iff in E. destruct E as [E1 E2].
    rewrite (layers_pick _ _ _ _ _ (y - y0)); [|lia|].
    + unfold in_box. replace (y0 + (y - y0)) with y by lia. rewrite E1, E2, Z.leb_refl. replace (y <? y + 1) with true by lia. reflexivity.
    + intros i _ Ni. unfold in_box. destruct (Z.leb_spec (y0 + i) y), (Z.ltb_spec y (y0 + i + 1)); rewrite ?andb_false_r; try reflexivity. lia.
  - apply layers_none. intros i Hi. unfold in_box. destruct (Z.leb_spec x0 x), (Z.ltb_spec x (x0 + w)), (Z.leb_spec y0 y), (Z.ltb_spec y (y0 + Z.of_nat n)); cbn [andb] in E; try discriminate; cbn [andb]; try reflexivity;
    destruct (Z.leb_spec (y0 + i) y), (Z.ltb_spec y (y0 + i + 1)); cbn [andb]; try reflexivity; lia.
Qed.
(** ... from the bottom up *)
Lemma rows_box_up x0 y0 w n (col : Z -> color) x y :
  layers n 0 (fun r x y => if in_box x0 (y0 + (Z.of_nat n - 1 - r)) w 1 x y then Some (col r) else None) x y =
  if in_box x0 y0 w (Z.of_nat n) x y then Some (col (Z.of_nat n - 1 - (y - y0))) else None.
Proof.
  destruct (in_box x0 y0 w (Z.of_nat n) x y) eqn:E; unfold in_box in E.
  - apply andb_true_iff in E. destruct E as [E E4]. apply andb_true_iff in E. destruct E as [E E3]. apply andb_true_iff in E. destruct E as [E1 E2].
    rewrite (layers_pick _ _ _ _ _ (Z.of_nat n - 1 - (y - y0))); [|lia|].
    + unfold in_box. replace (y0 + (Z.of_nat n - 1 - (Z.of_nat n - 1 - (y - y0)))) with y by lia. rewrite E1, E2, Z.leb_refl. replace (y <? y + 1) with true by lia. reflexivity.
    + intros i _ Ni. unfold in_box. destruct (Z.leb_spec (y0 + (Z.of_nat n - 1 - i)) y), (Z.ltb_spec y (y0 + (Z.of_nat n - 1 - i) + 1)); rewrite ?andb_false_r; try reflexivity. lia.
  - apply layers_none. intros i Hi. unfold in_box. destruct (Z.leb_spec x0 x), (Z.ltb_spec x (x0 + w)), (Z.leb_spec y0 y), (Z.ltb_spec y (y0 + Z.of_nat n)); cbn [andb] in E; try discriminate; cbn [andb]; try reflexivity;
    destruct (Z.leb_spec (y0 + (Z.of_nat n - 1 - i)) y), (Z.ltb_spec y (y0 + (Z.of_nat n - 1 - i) + 1)); cbn [andb]; try reflexivity; lia.
Qed.
(** a box of rows, each of one colour *)
Lemma box_set W H v x0 y0 w h (col : Z -> color) f pix : is_image W H pix -> shows_part W H v -> 0 <= x0 -> 0 <= w -> x0 + w <= i_width v ->
  0 <= y0 -> 0 <= h -> y0 + h <= i_height v ->
  (forall r p, 0 <= r < h -> f r p = for_ (Z.to_nat w) x0 (fun x p => set_px v x (y0 + r) (col r) p) p) ->
  exists p', for_ (Z.to_nat h) 0 f pix = Ok p' /\
  repainted W H (fun x y => if in_box (i_x v + x0) (i_y v + y0) w h x y then Some (col (y - (i_y v + y0))) else None) pix p'.
Proof.
  intros Hi V Hx Hw Hxw Hy Hh Hyh Hf.
  destruct (for_layers W H (Z.to_nat h) 0 f (fun r x y => if in_box (i_x v + x0) (i_y v + y0 + r) w 1 x y then Some (col r) else None) pix Hi) as (p' & E & R).
  { intros r p Hr Hp. rewrite Hf by lia. destruct (run_set W H v x0 (Z.to_nat w) (y0 + r) (col r) p Hp V Hx ltac:(lia) ltac:(lia)) as (p1 & E1 & R1).
    exists p1. split; [exact E1|]. replace (Z.of_nat (Z.to_nat w)) with w in R1 by lia. rewrite Z.add_assoc in R1. exact R1. }
  exists p'. split; [exact E|]. eapply repainted_ext; [|exact R]. intros x y _ _. cbv beta. rewrite rows_box. now rewrite Z2Nat.id by assumption.
Qed.
