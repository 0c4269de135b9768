(** Proofs about Merge.v. *)
From Coq Require Import Floats.SpecFloat.
From Coq Require Import ZArith List Lia Bool.
From Verif Require Import Base Pb PbRecord Float FloatProofs Merge MergeSpec.
Import ListNotations.
Open Scope Z_scope.

(** ** Merge *)
Lemma i64_add_l a b : i64 (i64 a + b) = i64 (a + b).
Proof.
  unfold i64. f_equal. replace ((a + 2 ^ 63) mod 2 ^ 64 - 2 ^ 63 + b + 2 ^ 63) with ((a + 2 ^ 63) mod 2 ^ 64 + b) by lia.
  rewrite Z.add_mod_idemp_l by lia. f_equal. lia.
Qed.
Lemma fold_i64 (f : drecord -> Z) l : forall n, fold_left (fun n r => i64 (n + f r)) l (i64 n) = i64 (n + total f l).
Proof.
  induction l as [|r l IH]; intros n; cbn [fold_left total fold_right]; [f_equal; lia|].
  rewrite i64_add_l, IH. f_equal. fold (total f l). lia.
Qed.
Lemma i64_0 : i64 0 = 0. Proof. reflexivity. Qed.
Lemma merge_obs_eq l : merge_obs l = i64 (total d_obs l).
Proof. unfold merge_obs. rewrite <- i64_0, fold_i64. reflexivity. Qed.
Lemma merge_merged_eq l : merge_merged l = i64 (total merge_count l).
Proof. unfold merge_merged. rewrite <- i64_0 at 1. exact (fold_i64 merge_count l 0). Qed.

Lemma merge_start_ok l : forall r0, smallest d_start (merge_start l (d_start r0)) (r0 :: l).
Proof.
  induction l as [|r l IH]; intros r0; cbn [merge_start fold_left].
  - split; [exists r0; split; [now left|reflexivity]|]. intros r [->|[]]. lia.
  - destruct (Z.ltb_spec (d_start r) (d_start r0)) as [H|H].
    + destruct (IH r) as [(x & X1 & X2) Y]. split.
      * exists x. split; [|exact X2]. now right.
      * intros y [<-|Hy]; [|apply Y; exact Hy]. specialize (Y r (or_introl eq_refl)). unfold merge_start in Y. lia.
    + destruct (IH r0) as [(x & X1 & X2) Y]. split.
      * exists x. split; [|exact X2]. destruct X1; [now left|right; now right].
      * intros y [<-|[<-|Hy]]; [apply Y; now left| |apply Y; now right]. specialize (Y r0 (or_introl eq_refl)). unfold merge_start in Y. lia.
Qed.
Lemma merge_end_ok l : forall r0, largest d_end (merge_end l (d_end r0)) (r0 :: l).
Proof.
  induction l as [|r l IH]; intros r0; cbn [merge_end fold_left].
  - split; [exists r0; split; [now left|reflexivity]|]. intros r [->|[]]. lia.
  - destruct (Z.ltb_spec (d_end r0) (d_end r)) as [H|H].
    + destruct (IH r) as [(x & X1 & X2) Y]. split.
      * exists x. split; [|exact X2]. now right.
      * intros y [<-|Hy]; [|apply Y; exact Hy]. specialize (Y r (or_introl eq_refl)). unfold merge_end in Y. lia.
    + destruct (IH r0) as [(x & X1 & X2) Y]. split.
      * exists x. split; [|exact X2]. destruct X1; [now left|right; now right].
      * intros y [<-|[<-|Hy]]; [apply Y; now left| |apply Y; now right]. specialize (Y r0 (or_introl eq_refl)). unfold merge_end in Y. lia.
Qed.

(** minimum: value, and the id is that of a record after the first unless the
    first has the minimum *)
Lemma merge_min_ok l : forall m, fnan (fst m) = false -> (forall r, In r l -> fnan (d_min r) = false) ->
  let m' := merge_min l m in
  fnan (fst m') = false /\ flt (fst m) (fst m') = false /\ (forall r, In r l -> flt (d_min r) (fst m') = false) /\
  (m' = m \/ (flt (fst m') (fst m) = true /\ exists r, In r l /\ m' = (d_min r, d_minid r))).
Proof.
  induction l as [|r l IH]; intros m Hm Hl; cbn [merge_min fold_left].
  - split; [assumption|]. split; [apply flt_irrefl|]. split; [contradiction|]. now left.
  - assert (Hr : fnan (d_min r) = false) by (apply Hl; now left).
    assert (Hl' : forall r, In r l -> fnan (d_min r) = false) by (intros; apply Hl; now right).
    destruct (flt (d_min r) (fst m)) eqn:E.
    + destruct (IH (d_min r, d_minid r) Hr Hl') as (A & B & C & D). cbn [fst] in *. fold (merge_min l (d_min r, d_minid r)).
      set (m' := merge_min l (d_min r, d_minid r)) in *.
      rewrite flt_key in E, B by assumption.
      split; [assumption|]. split; [rewrite flt_key by assumption; lia|]. split.
      * intros x [<-|Hx]; [rewrite flt_key by assumption; lia|auto].
      * right. split; [rewrite flt_key by assumption; lia|]. destruct D as [D|(_ & x & X1 & X2)].
        -- exists r. split; [now left|exact D].
        -- exists x. split; [now right|exact X2].
    + destruct (IH m Hm Hl') as (A & B & C & D). fold (merge_min l m). set (m' := merge_min l m) in *.
      split; [assumption|]. split; [assumption|]. split.
      * intros x [<-|Hx]; [|auto]. rewrite flt_key in * by assumption. lia.
      * destruct D as [D|(D & x & X1 & X2)]; [now left|]. right. split; [assumption|]. exists x. split; [now right|assumption].
Qed.
Lemma merge_max_ok l : forall m, fnan (fst m) = false -> (forall r, In r l -> fnan (d_max r) = false) ->
  let m' := merge_max l m in
  fnan (fst m') = false /\ flt (fst m') (fst m) = false /\ (forall r, In r l -> flt (fst m') (d_max r) = false) /\
  (m' = m \/ (flt (fst m) (fst m') = true /\ exists r, In r l /\ m' = (d_max r, d_maxid r))).
Proof.
  induction l as [|r l IH]; intros m Hm Hl; cbn [merge_max fold_left].
  - split; [assumption|]. split; [apply flt_irrefl|]. split; [contradiction|]. now left.
  - assert (Hr : fnan (d_max r) = false) by (apply Hl; now left).
    assert (Hl' : forall r, In r l -> fnan (d_max r) = false) by (intros; apply Hl; now right).
    destruct (flt (fst m) (d_max r)) eqn:E.
    + destruct (IH (d_max r, d_maxid r) Hr Hl') as (A & B & C & D). cbn [fst] in *. fold (merge_max l (d_max r, d_maxid r)).
      set (m' := merge_max l (d_max r, d_maxid r)) in *.
      rewrite flt_key in E, B by assumption.
      split; [assumption|]. split; [rewrite flt_key by assumption; lia|]. split.
      * intros x [<-|Hx]; [rewrite flt_key by assumption; lia|auto].
      * right. split; [rewrite flt_key by assumption; lia|]. destruct D as [D|(_ & x & X1 & X2)].
        -- exists r. split; [now left|exact D].
        -- exists x. split; [now right|exact X2].
    + destruct (IH m Hm Hl') as (A & B & C & D). fold (merge_max l m). set (m' := merge_max l m) in *.
      split; [assumption|]. split; [assumption|]. split.
      * intros x [<-|Hx]; [|auto]. rewrite flt_key in * by assumption. lia.
      * destruct D as [D|(D & x & X1 & X2)]; [now left|]. right. split; [assumption|]. exists x. split; [now right|assumption].
Qed.

Lemma sample_all_ok p l : forall dig, 
  sample_all p dig l = (if forallb (fun r => beqb (d_kind r) s_tdigest && tp_valid p (d_dist r)) l then Ok (dig ++ map d_dist l) else Err).
Proof.
  induction l as [|r l IH]; intros dig; cbn [sample_all forallb map]; [now rewrite app_nil_r|].
  unfold sample. destruct (beqb (d_kind r) s_tdigest); [|reflexivity]. destruct (tp_valid p (d_dist r)); [|reflexivity].
  cbn [bind andb]. rewrite IH, <- app_assoc. reflexivity.
Qed.

Lemma merge_inv p l out : merge p l = Ok out -> exists r0 rest, l = r0 :: rest /\ tp_new p = true /\
  forallb (fun r => beqb (d_kind r) s_tdigest && tp_valid p (d_dist r)) l = true /\
  out = DRec (merge_start rest (d_start r0)) (merge_end rest (d_end r0)) (merge_obs l)
          (tp_marshal p (map d_dist l)) s_tdigest (fst (merge_min rest (d_min r0, []))) (fst (merge_max rest (d_max r0, [])))
          (snd (merge_min rest (d_min r0, []))) (snd (merge_max rest (d_max r0, []))) (merge_merged l).
Proof.
  unfold merge. destruct l as [|r0 rest]; [discriminate|]. destruct (tp_new p) eqn:Hp; [|discriminate]. cbn [negb].
  rewrite sample_all_ok. destruct (forallb _ (r0 :: rest)) eqn:Hv; [|discriminate]. cbn [bind app].
  intros H. injection H as <-. exists r0, rest. auto.
Qed.
Lemma merge_total p l : l <> [] -> tp_new p = true ->
  forallb (fun r => beqb (d_kind r) s_tdigest && tp_valid p (d_dist r)) l = true -> exists out, merge p l = Ok out.
Proof.
  intros Hne Hp Hv. unfold merge. destruct l as [|r0 rest]; [contradiction|]. rewrite Hp, sample_all_ok, Hv. cbn. eauto.
Qed.

(** ** Columns *)
Lemma candidates_ge px i l x : In x (candidates px i l) -> (i <= x)%nat.
Proof.
  revert i. induction l as [|mr l IH]; intros i H; cbn in H; [contradiction|].
  destruct (covers px mr); [destruct H as [<-|H]; [lia|]|]; apply IH in H; lia.
Qed.
Lemma pick_shift mr l ix : (forall i, In i ix -> (1 <= i)%nat) -> pick (mr :: l) ix = pick l (map pred ix).
Proof.
  induction ix as [|i ix IH]; intros H; [reflexivity|]. cbn [pick flat_map map].
  assert (Hi : (1 <= i)%nat) by (apply H; now left). destruct i as [|i]; [lia|]. cbn [nth_error pred].
  f_equal. apply IH. intros j Hj. apply H. now right.
Qed.
Lemma candidates_shift px l : forall i, map pred (candidates px (S i) l) = candidates px i l.
Proof. induction l as [|mr l IH]; intros i; cbn; [reflexivity|]. destruct (covers px mr); cbn; rewrite IH; reflexivity. Qed.
Lemma pick_candidates px l : pick l (candidates px 0 l) = filter (covers px) l.
Proof.
  induction l as [|mr l IH]; [reflexivity|]. cbn [candidates filter]. destruct (covers px mr).
  - cbn [pick flat_map nth_error app]. f_equal. change (pick (mr :: l) (candidates px 1 l) = filter (covers px) l).
    rewrite pick_shift, candidates_shift; [exact IH|]. intros i Hi. now apply candidates_ge in Hi.
  - rewrite pick_shift, candidates_shift; [exact IH|]. intros i Hi. now apply candidates_ge in Hi.
Qed.
Lemma ints_eq_eq a : forall b, ints_eq a b = true <-> a = b.
Proof.
  induction a as [|x a IH]; intros [|y b]; cbn; split; intros H; try discriminate; auto.
  - apply andb_true_iff in H. destruct H as [H1 H2]. apply Nat.eqb_eq in H1. apply IH in H2. congruence.
  - injection H as -> ->. rewrite Nat.eqb_refl. cbn. now apply IH.
Qed.

(** columns for the pixels >= lo, where pixel p shows the records [F p] *)
Record tiled (o : moptions) (F : Z -> list drecord) (lo : Z) (cols : list column) : Prop := {
  ti_pos : forall c, In c cols -> lo <= col_x c /\ 1 <= col_w c;
  ti_shows : forall c p, In c cols -> in_col p c -> col_shows o c (F p);
  ti_const : forall c p q, In c cols -> in_col p c -> in_col q c -> F p = F q;
  ti_ord : ForallOrdPairs (fun a b => col_x b + col_w b <= col_x a) cols;
  ti_all : forall p, lo <= p -> F p <> [] -> exists c, In c cols /\ in_col p c
}.

Lemma ford_snoc {A} (R : A -> A -> Prop) l x : ForallOrdPairs R l -> (forall y, In y l -> R y x) -> ForallOrdPairs R (l ++ [x]).
Proof.
  induction 1 as [|a l Ha Hl IH]; intros Hx; cbn.
  - constructor; constructor.
  - constructor; [apply Forall_app; split; [assumption|constructor; [apply Hx; now left|constructor]]|]. apply IH. intros y Hy. apply Hx. now right.
Qed.

Lemma tiled_snoc o F lo hi cols c :
  tiled o F hi cols -> lo < hi -> col_x c = lo -> col_x c + col_w c = hi ->
  (forall p, lo <= p < hi -> F p = F lo) -> col_shows o c (F lo) ->
  tiled o F lo (cols ++ [c]).
Proof.
  intros [A B C D E] Hlt Hx Hw HF Hs. constructor.
  - intros c' Hc. apply in_app_or in Hc. destruct Hc as [Hc|[<-|[]]]; [specialize (A c' Hc)|]; lia.
  - intros c' p Hc Hp. apply in_app_or in Hc. destruct Hc as [Hc|[<-|[]]]; [eauto|].
    rewrite HF; [exact Hs|]. unfold in_col in Hp. lia.
  - intros c' p q Hc Hp Hq. apply in_app_or in Hc. destruct Hc as [Hc|[<-|[]]]; [eauto|].
    unfold in_col in *. rewrite (HF p), (HF q) by lia. reflexivity.
  - apply ford_snoc; [assumption|]. intros y Hy. specialize (A y Hy). lia.
  - intros p Hp HFp. destruct (Z_lt_le_dec p hi) as [X|X].
    + exists c. split; [apply in_or_app; right; now left|]. unfold in_col. lia.
    + destruct (E p X HFp) as (c' & C1 & C2). exists c'. split; [apply in_or_app; now left|assumption].
Qed.
Lemma tiled_lower o F lo hi cols : tiled o F hi cols -> lo <= hi -> (forall p, lo <= p < hi -> F p = []) -> tiled o F lo cols.
Proof.
  intros [A B C D E] Hlt HF. constructor; auto.
  - intros c Hc. specialize (A c Hc). lia.
  - intros p Hp HFp. destruct (Z_lt_le_dec p hi) as [X|X]; [rewrite HF in HFp by lia; contradiction|auto].
Qed.
Lemma tiled_ext o F G lo cols : tiled o F lo cols -> (forall p, lo <= p -> G p = F p) -> tiled o G lo cols.
Proof.
  intros [A B C D E] H. constructor; auto.
  - intros c p Hc Hp. rewrite H; [eauto|]. unfold in_col in Hp. specialize (A c Hc). lia.
  - intros c p q Hc Hp Hq. specialize (A c Hc). rewrite !H by (unfold in_col in *; lia). eauto.
  - intros p Hp HG. rewrite H in HG by assumption. eauto.
Qed.

Definition recs_at (l : list mrecord) (p : Z) : list drecord := map mr_rec (filter (covers p) l).

Lemma emit_ok o a b l c : emit o a b l = Ok c -> col_x c = a /\ col_w c = b - a + 1 /\ col_shows o c (map mr_rec l).
Proof.
  unfold emit. destruct (merge (mo_params o) (map mr_rec l)) as [out| | |] eqn:E; try discriminate. cbn [bind].
  destruct (mo_sample o out) as [d|] eqn:S; [|discriminate]. intros H. injection H as <-. cbn [col_x col_w]. split; [reflexivity|]. split; [reflexivity|].
  split; [exists out; auto|]. cbn [col_rate]. unfold col_obs_sec, obs_sec. rewrite map_length. f_equal. clear.
  generalize (SpecFloat.S754_zero false). induction l as [|m l IH]; intros z; [reflexivity|]. cbn [map fold_left]. apply IH.
Qed.

Lemma loop_ok o recs F : (* F agrees with the records below the pixels already done *)
  forall n px te en cols te' en' cols',
  (forall p, p <= px -> F p = recs_at recs p) ->
  completed_loop o recs n px te en cols = Ok (te', en', cols') ->
  (match te with
   | [] => tiled o F (px + 1) cols
   | _ => tiled o F (en + 1) cols /\ px < en /\ forall p, px < p <= en -> candidates p 0 recs = te /\ F p = recs_at recs p
   end) ->
  let px' := px - Z.of_nat n in
  match te' with
   | [] => tiled o F (px' + 1) cols'
   | _ => tiled o F (en' + 1) cols' /\ px' < en' /\ forall p, px' < p <= en' -> candidates p 0 recs = te' /\ F p = recs_at recs p
   end.
Proof.
  induction n as [|n IH]; intros px te en cols te' en' cols' HF E HI px'.
  - cbn in E. injection E as <- <- <-. subst px'. replace (px - Z.of_nat 0) with px by lia. exact HI.
  - cbn [completed_loop] in E.
    assert (Hpx : px' = (px - 1) - Z.of_nat n) by (subst px'; lia). rewrite Hpx.
    assert (HF' : forall p, p <= px - 1 -> F p = recs_at recs p) by (intros; apply HF; lia).
    assert (Hat : F px = recs_at recs px) by (apply HF; lia).
    destruct (ints_eq (candidates px 0 recs) te) eqn:Ec.
    + apply ints_eq_eq in Ec. apply (IH _ _ _ _ _ _ _ HF' E).
      destruct te as [|t te].
      * replace (px - 1 + 1) with px by lia. apply (tiled_lower o F px (px + 1) cols HI); [lia|].
        intros p Hp. replace p with px by lia. rewrite Hat. unfold recs_at. rewrite <- pick_candidates, Ec. reflexivity.
      * destruct HI as (T & L & C). split; [assumption|]. split; [lia|]. intros p Hp.
        destruct (Z.eq_dec p px) as [->|]; [auto|]. apply C. lia.
    + assert (Hnew : forall cols, tiled o F (px + 1) cols ->
         match candidates px 0 recs with
         | [] => tiled o F (px - 1 + 1) cols
         | _ => tiled o F (px + 1) cols /\ px - 1 < px /\ forall p, px - 1 < p <= px -> candidates p 0 recs = candidates px 0 recs /\ F p = recs_at recs p
         end).
      { intros cs T. destruct (candidates px 0 recs) as [|t l] eqn:Ecand.
        - replace (px - 1 + 1) with px by lia. apply (tiled_lower o F px (px + 1) cs T); [lia|].
          intros p Hp. replace p with px by lia. rewrite Hat. unfold recs_at. rewrite <- pick_candidates, Ecand. reflexivity.
        - split; [assumption|]. split; [lia|]. intros p Hp. replace p with px by lia. auto. }
      destruct te as [|t te].
      * apply (IH _ _ _ _ _ _ _ HF' E). apply Hnew. exact HI.
      * destruct HI as (T & L & C).
        destruct (emit o (px + 1) en (pick recs (t :: te))) as [c| | |] eqn:Em; try discriminate. cbn [bind] in E.
        apply (IH _ _ _ _ _ _ _ HF' E). apply Hnew.
        destruct (emit_ok _ _ _ _ _ Em) as (X & W & S).
        assert (Hpick : forall p, px < p <= en -> F p = map mr_rec (pick recs (t :: te))).
        { intros p Hp. destruct (C p Hp) as [C1 C2]. rewrite C2. unfold recs_at. rewrite <- pick_candidates, C1. reflexivity. }
        apply (tiled_snoc o F (px + 1) (en + 1)); auto; try lia.
        -- intros p Hp. rewrite (Hpick p), (Hpick (px + 1)) by lia. reflexivity.
        -- rewrite (Hpick (px + 1)) by lia. exact S.
Qed.

(** state of a Merger after pushing [all] *)
Record mgok (m : merger) (all : list mrecord) : Prop := {
  mk_tiled : tiled (mg_opts m) (recs_at all) (mg_completed m) (mg_columns m);
  mk_recs : forall p, p < mg_completed m -> filter (covers p) (mg_records m) = filter (covers p) all;
  mk_empty : all = [] -> mg_columns m = [] /\ mg_records m = [];
  mk_end : forall mr, In mr all -> mg_completed m <= mr_end mr + 1
}.

Lemma completed_ok m all px m' : mgok m all -> (all = [] \/ px <= mg_completed m) -> completed px m = Ok m' ->
  mg_opts m' = mg_opts m /\ mg_pixel m' = mg_pixel m /\ mg_width m' = mg_width m /\ mg_completed m' = px /\ mgok m' all.
Proof.
  intros [T R K N] Hpx E. unfold completed in E.
  destruct (completed_loop _ _ _ _ _ _ _) as [[[te en] cols]| | |] eqn:El; try discriminate. cbn [bind] in E.
  destruct (match te with [] => Ok cols | _ => _ end) as [cols'| | |] eqn:Ec; try discriminate. cbn [bind] in E. injection E as <-.
  cbn [mg_opts mg_pixel mg_width mg_completed]. repeat (split; [reflexivity|]).
  assert (HT : tiled (mg_opts m) (recs_at all) px cols').
  { destruct (Z_lt_le_dec (mg_completed m) px) as [Hlt|Hle].
    - destruct Hpx as [->|]; [|lia]. destruct (K eq_refl) as [K1 K2]. rewrite K1, K2 in El.
      replace (Z.to_nat (mg_completed m - px)) with 0%nat in El by lia. cbn in El. injection El as <- <- <-. injection Ec as <-.
      constructor; [intros ? []|intros ? ? []|intros ? ? ? []|constructor|intros p _ H; exfalso; apply H; reflexivity].
    - assert (HR : forall p, p <= mg_completed m - 1 -> recs_at all p = recs_at (mg_records m) p)
        by (intros p Hp; unfold recs_at; rewrite R by lia; reflexivity).
      pose proof (loop_ok (mg_opts m) (mg_records m) (recs_at all) _ _ _ _ _ _ _ _ HR El) as L. cbn zeta in L.
      replace (mg_completed m - 1 - Z.of_nat (Z.to_nat (mg_completed m - px))) with (px - 1) in L by lia.
      replace (mg_completed m - 1 + 1) with (mg_completed m) in L by lia. specialize (L T).
      destruct te as [|t te].
      + injection Ec as <-. replace (px - 1 + 1) with px in L by lia. exact L.
      + destruct L as (T' & Lt & C).
        destruct (emit (mg_opts m) px en (pick (mg_records m) (t :: te))) as [c| | |] eqn:Em; try discriminate. cbn [bind] in Ec. injection Ec as <-.
        destruct (emit_ok _ _ _ _ _ Em) as (X & W & S).
        assert (Hpick : forall p, px - 1 < p <= en -> recs_at all p = map mr_rec (pick (mg_records m) (t :: te))).
        { intros p Hp. destruct (C p Hp) as [C1 C2]. rewrite C2. unfold recs_at. rewrite <- pick_candidates, C1. reflexivity. }
        apply (tiled_snoc _ _ px (en + 1)); auto; try lia.
        * intros p Hp. rewrite (Hpick p), (Hpick px) by lia. reflexivity.
        * rewrite (Hpick px) by lia. exact S. }
  constructor; cbn [mg_opts mg_completed mg_columns mg_records].
  - exact HT.
  - intros p Hp. destruct Hpx as [->|Hpx].
    + destruct (K eq_refl) as [_ K2]. rewrite K2. reflexivity.
    + rewrite <- (R p) by lia. clear - Hp. induction (mg_records m) as [|mr l IH]; [reflexivity|]. cbn [filter].
      destruct (negb _) eqn:E; cbn [filter]; rewrite IH; [reflexivity|].
      apply negb_false_iff in E. apply andb_true_iff in E. destruct E as [E _]. unfold covers.
      replace (mr_start mr <=? p) with false by lia. reflexivity.
  - intros ->. destruct (K eq_refl) as [K1 K2]. split; [|now rewrite K2].
    destruct cols' as [|c cols']; [reflexivity|]. exfalso.
    destruct (ti_shows _ _ _ _ HT c (col_x c) (or_introl eq_refl)) as ((out & M & _) & _); [|discriminate].
    unfold in_col. pose proof (ti_pos _ _ _ _ HT c (or_introl eq_refl)). lia.
  - intros mr Hmr. destruct Hpx as [->|Hpx]; [contradiction|]. specialize (N mr Hmr). lia.
Qed.

(** ** Push and Finish *)
Lemma mg_push_ok m all r m' : mgok m all -> mg_push r m = Ok m' ->
  (forall e, time_to_pixel m (d_end r) = Ok e -> e + 1 <= mg_completed m) ->
  exists s e, time_to_pixel m (d_start r) = Ok s /\ time_to_pixel m (d_end r) = Ok e /\
    mg_opts m' = mg_opts m /\ mg_pixel m' = mg_pixel m /\ mg_width m' = mg_width m /\ mg_completed m' = e + 1 /\
    mgok m' (all ++ [MRec r s e]).
Proof.
  intros Hok E Hle. unfold mg_push in E. destruct (mg_width m =? 0); [discriminate|].
  destruct (time_to_pixel m (d_start r)) as [s| | |] eqn:Es; try discriminate. cbn [bind] in E.
  destruct (time_to_pixel m (d_end r)) as [e| | |] eqn:Ee; try discriminate. cbn [bind] in E.
  destruct (completed (e + 1) m) as [m1| | |] eqn:Ec; try discriminate. cbn [bind] in E. injection E as <-.
  destruct (completed_ok _ _ _ _ Hok (or_intror (Hle e eq_refl)) Ec) as (O & P & W & C & [T R K N]).
  exists s, e. cbn [mg_opts mg_pixel mg_width mg_completed]. repeat (split; [assumption || reflexivity|]).
  assert (Hnew : forall p, e + 1 <= p -> covers p (MRec r s e) = false).
  { intros p Hp. unfold covers. cbn [mr_start mr_end]. apply andb_false_iff. right. lia. }
  constructor; cbn [mg_opts mg_completed mg_columns mg_records].
  - apply (tiled_ext _ (recs_at all)); [exact T|]. intros p Hp. unfold recs_at.
    rewrite filter_app. cbn [filter]. rewrite Hnew by lia. now rewrite app_nil_r.
  - intros p Hp. rewrite !filter_app, (R p) by assumption. reflexivity.
  - intros X. destruct all; discriminate.
  - intros mr Hmr. apply in_app_or in Hmr. destruct Hmr as [Hmr|[<-|[]]]; [auto|]. cbn. lia.
Qed.

(** the pixels a record is drawn in, in terms of the window: records older than
    the window are drawn in pixel 0 *)
Definition drawn (now ps w p : Z) (r : drecord) : bool :=
  (d_start r <? px_hi now ps w p) && ((p <=? 0) || (px_lo now ps w p <=? d_end r)).

Lemma ttp_eq m t : let ps := mg_pixel m in let now := mo_now (mg_opts m) in
  0 < ps < 2 ^ 61 -> 0 < mg_width m < 2 ^ 61 -> 0 < now - t < 2 ^ 61 ->
  exists px, time_to_pixel m t = Ok px /\ 0 <= px < mg_width m /\
    (forall p, 0 <= p -> (px <=? p) = (t <? px_hi now ps (mg_width m) p)) /\
    (forall p, 0 <= p -> (p <=? px) = ((p <=? 0) || (px_lo now ps (mg_width m) p <=? t))).
Proof.
  cbn zeta. set (ps := mg_pixel m). set (now := mo_now (mg_opts m)). set (w := mg_width m). intros Hps Hw Ht.
  unfold time_to_pixel. fold ps now w. replace (ps =? 0) with false by lia.
  rewrite (i64_id (now - t + ps - 1)) by (unfold is_i64; lia).
  set (q := Z.quot (now - t + ps - 1) ps).
  assert (Hq : q = (now - t + ps - 1) / ps) by (apply Z.quot_div_nonneg; lia).
  pose proof (Z.mul_div_le (now - t + ps - 1) ps ltac:(lia)) as B1. rewrite <- Hq in B1.
  pose proof (Z.mul_succ_div_gt (now - t + ps - 1) ps ltac:(lia)) as B2. rewrite <- Hq in B2.
  assert (H1 : 1 <= q) by nia.
  assert (H2 : q <= now - t + ps - 1) by nia.
  rewrite (i64_id q) by (unfold is_i64; lia). rewrite (i64_id (w - q)) by (unfold is_i64; lia).
  assert (L1 : forall k, q <= k -> now - t <= k * ps) by (intros; nia).
  assert (L2 : forall k, now - t <= k * ps -> q <= k) by (intros; nia).
  exists (if w - q <? 0 then 0 else w - q). split; [reflexivity|]. split; [destruct (w - q <? 0) eqn:E; lia|].
  unfold px_hi, px_lo. split; intros p Hp.
  - specialize (L1 (w - p - 1)). specialize (L2 (w - p - 1)).
    destruct (w - q <? 0) eqn:E; [replace (0 <=? p) with true by lia|destruct (w - q <=? p) eqn:E2];
      symmetry; [apply Z.ltb_lt|apply Z.ltb_lt|apply Z.ltb_ge].
    + destruct (Z_lt_le_dec t (now - (w - p - 1) * ps)); [assumption|]. specialize (L2 ltac:(lia)). lia.
    + destruct (Z_lt_le_dec t (now - (w - p - 1) * ps)); [assumption|]. specialize (L2 ltac:(lia)). lia.
    + specialize (L1 ltac:(lia)). lia.
  - specialize (L1 (w - p)). specialize (L2 (w - p)).
    destruct (Z.leb_spec p 0) as [P|P]; cbn [orb].
    + replace p with 0 by lia. destruct (w - q <? 0) eqn:E; lia.
    + destruct (w - q <? 0) eqn:E; [destruct (Z.leb_spec p 0); [lia|]|destruct (Z.leb_spec p (w - q)) as [X|X]];
        symmetry; [apply Z.leb_gt|apply Z.leb_le|apply Z.leb_gt].
      * destruct (Z_lt_le_dec t (now - (w - p) * ps)); [assumption|]. specialize (L2 ltac:(lia)). lia.
      * specialize (L1 ltac:(lia)). lia.
      * destruct (Z_lt_le_dec t (now - (w - p) * ps)); [assumption|]. specialize (L2 ltac:(lia)). lia.
Qed.
Lemma ttp_mono m t t' e e' : let ps := mg_pixel m in let now := mo_now (mg_opts m) in
  0 < ps < 2 ^ 61 -> 0 < mg_width m < 2 ^ 61 -> 0 < now - t < 2 ^ 61 -> 0 < now - t' < 2 ^ 61 -> t <= t' ->
  time_to_pixel m t = Ok e -> time_to_pixel m t' = Ok e' -> e <= e'.
Proof.
  cbn zeta. intros A B C D L E E'.
  destruct (ttp_eq m t A B C) as (x & X & _ & _ & X2). destruct (ttp_eq m t' A B D) as (y & Y & Yb & _ & Y2).
  rewrite E in X. injection X as <-. rewrite E' in Y. injection Y as <-.
  destruct (Z_lt_le_dec e 0); [lia|].
  specialize (X2 e ltac:(lia)). specialize (Y2 e ltac:(lia)). rewrite Z.leb_refl in X2. lia.
Qed.

Definition in_range (now : Z) (r : drecord) : Prop :=
  d_start r < now /\ d_end r < now /\ now - d_start r < 2 ^ 61 /\ now - d_end r < 2 ^ 61.

Definition same_px (m m' : merger) : Prop :=
  mg_opts m' = mg_opts m /\ mg_pixel m' = mg_pixel m /\ mg_width m' = mg_width m.
Lemma ttp_same m m' t : same_px m m' -> time_to_pixel m' t = time_to_pixel m t.
Proof. intros (A & B & C). unfold time_to_pixel. rewrite A, B, C. reflexivity. Qed.

Lemma mg_pushes_ok l : forall m all m',
  mgok m all -> 0 <= mg_completed m ->
  0 < mg_pixel m < 2 ^ 61 -> 0 < mg_width m < 2 ^ 61 -> Forall (in_range (mo_now (mg_opts m))) l -> newest_first l ->
  (match l with [] => True | r :: _ => forall e, time_to_pixel m (d_end r) = Ok e -> e + 1 <= mg_completed m end) ->
  mg_pushes l m = Ok m' ->
  same_px m m' /\ 0 <= mg_completed m' /\ exists more, mgok m' (all ++ more) /\ map mr_rec more = l /\
    Forall (fun mr => time_to_pixel m (d_start (mr_rec mr)) = Ok (mr_start mr) /\ time_to_pixel m (d_end (mr_rec mr)) = Ok (mr_end mr)) more.
Proof.
  induction l as [|r l IH]; intros m all m' Hok Hc Hps Hw HF HN Hfirst E; cbn [mg_pushes] in E.
  - injection E as <-. split; [split; auto|]. split; [assumption|]. exists []. rewrite app_nil_r. auto.
  - destruct (mg_push r m) as [m1| | |] eqn:E1; try discriminate. cbn [bind] in E.
    destruct (mg_push_ok _ _ _ _ Hok E1 Hfirst) as (s & e & Es & Ee & O & P & W & C & Hok1).
    assert (S1 : same_px m m1) by (split; auto).
    apply Forall_cons_iff in HF. destruct HF as [Hr HF]. destruct HN as [HN1 HN].
    destruct Hr as (R1 & R2 & R3 & R4).
    destruct (ttp_eq m (d_end r) Hps Hw ltac:(lia)) as (e' & Ee' & Be & _ & _).
    rewrite Ee in Ee'. injection Ee' as <-.
    destruct (IH m1 _ m' Hok1) as (S2 & C2 & more & M1 & M2 & M3); auto; try lia.
    + rewrite O. exact HF.
    + destruct l as [|r2 l]; [exact I|]. intros e2 E2. rewrite (ttp_same m m1) in E2 by assumption. rewrite C.
      apply Forall_cons_iff in HF. destruct HF as [(Q1 & Q2 & Q3 & Q4) _].
      enough (e2 <= e) by lia. eapply (ttp_mono m (d_end r2) (d_end r)); eauto; lia.
    + split; [destruct S2 as (A & B & D); repeat split; congruence|]. split; [assumption|].
      exists (MRec r s e :: more). split; [rewrite <- app_assoc in M1; exact M1|]. split; [cbn; now rewrite M2|].
      constructor; [cbn; auto|]. eapply Forall_impl; [|exact M3]. cbn. intros mr. rewrite !(ttp_same m m1) by assumption. auto.
Qed.

Lemma recs_drawn m more p : 0 <= p -> 0 < mg_pixel m < 2 ^ 61 -> 0 < mg_width m < 2 ^ 61 ->
  Forall (in_range (mo_now (mg_opts m))) (map mr_rec more) ->
  Forall (fun mr => time_to_pixel m (d_start (mr_rec mr)) = Ok (mr_start mr) /\ time_to_pixel m (d_end (mr_rec mr)) = Ok (mr_end mr)) more ->
  recs_at more p = filter (drawn (mo_now (mg_opts m)) (mg_pixel m) (mg_width m) p) (map mr_rec more).
Proof.
  intros Hp Hps Hw. induction more as [|mr more IH]; intros HR HT; [reflexivity|].
  cbn [map] in HR. apply Forall_cons_iff in HR, HT. destruct HR as [(R1 & R2 & R3 & R4) HR]. destruct HT as [(T1 & T2) HT].
  unfold recs_at in *. cbn [filter map]. 
  destruct (ttp_eq m (d_start (mr_rec mr)) Hps Hw ltac:(lia)) as (s & Es & _ & S & _).
  destruct (ttp_eq m (d_end (mr_rec mr)) Hps Hw ltac:(lia)) as (e & Ee & _ & _ & X).
  rewrite T1 in Es. injection Es as <-. rewrite T2 in Ee. injection Ee as <-.
  assert (D : covers p mr = drawn (mo_now (mg_opts m)) (mg_pixel m) (mg_width m) p (mr_rec mr))
    by (unfold covers, drawn; rewrite S, X by assumption; reflexivity).
  rewrite D. destruct (drawn _ _ _ _ _); cbn [map]; rewrite IH by assumption; reflexivity.
Qed.

Lemma mgok_new o w ps : 0 < w -> mgok (Merger o ps w w [] []) [].
Proof.
  intros Hw. constructor; cbn [mg_opts mg_completed mg_columns mg_records].
  - constructor; [intros ? []|intros ? ? []|intros ? ? ? []|constructor|]. intros p _ H. exfalso. apply H. reflexivity.
  - reflexivity.
  - auto.
  - intros ? [].
Qed.

Theorem mg_render_ok o w l cols :
  let ps := mo_duration o / w in let now := mo_now o in
  0 < w < 2 ^ 61 -> w <= mo_duration o < 2 ^ 61 -> Forall (in_range now) l -> newest_first l ->
  mg_render o w l = Ok cols ->
  tiled o (fun p => if 0 <=? p then filter (drawn now ps w p) l else []) 0 cols /\
  forall c, In c cols -> col_x c + col_w c <= w.
Proof.
  cbn zeta. intros Hw Hd HR HN E. unfold mg_render, mg_set_width, mg_new in E. replace (w =? 0) with false in E by lia.
  cbn [bind mg_opts mg_records mg_columns] in E. rewrite Z.quot_div_nonneg in E by lia.
  pose proof (Z.div_str_pos (mo_duration o) w ltac:(lia)) as Hps.
  pose proof (Z.div_le_upper_bound (mo_duration o) w (mo_duration o) ltac:(lia) ltac:(nia)) as Hps2.
  rewrite i64_id in E by (unfold is_i64; lia).
  set (ps := mo_duration o / w) in *. set (m0 := Merger o ps w w [] []) in *.
  destruct (mg_pushes l m0) as [m1| | |] eqn:E1; try discriminate. cbn [bind] in E.
  assert (P0 : 0 < mg_pixel m0 < 2 ^ 61) by (cbn; lia).
  assert (W0 : 0 < mg_width m0 < 2 ^ 61) by (cbn; lia).
  destruct (mg_pushes_ok l m0 [] m1 (mgok_new o w ps ltac:(lia))) as (S1 & C1 & more & M1 & M2 & M3); auto.
  { cbn. lia. }
  { destruct l as [|r l]; [exact I|]. intros e He. apply Forall_cons_iff in HR. destruct HR as [(R1 & R2 & R3 & R4) _].
    destruct (ttp_eq m0 (d_end r) P0 W0) as (e' & Ee & B & _); [cbn; lia|]. rewrite He in Ee. injection Ee as <-. cbn in *. lia. }
  cbn [app] in M1. unfold mg_finish in E. destruct (completed 0 m1) as [m2| | |] eqn:E2; try discriminate.
  cbn [bind] in E. injection E as <-.
  destruct (completed_ok _ _ _ _ M1 (or_intror C1) E2) as (O & P & W & C & [T R K N]).
  destruct S1 as (O1 & P1 & W1). rewrite O, O1, C in T. change (mg_opts m0) with o in T.
  split.
  - eapply tiled_ext; [exact T|]. intros p Hp. cbn beta. replace (0 <=? p) with true by lia. rewrite <- M2.
    symmetry. apply (recs_drawn m0 more p Hp P0 W0); [rewrite M2; exact HR|exact M3].
  - intros c Hc. destruct (ti_pos _ _ _ _ T c Hc) as [X1 X2]. set (p := col_x c + col_w c - 1).
    destruct (ti_shows _ _ _ _ T c p Hc) as ((out & M & _) & _); [unfold in_col; lia|].
    rewrite (recs_drawn m0 more p ltac:(lia) P0 W0) in M; [|rewrite M2; exact HR|exact M3]. rewrite M2 in M.
    destruct (filter (drawn (mo_now (mg_opts m0)) (mg_pixel m0) (mg_width m0) p) l) as [|r rest] eqn:Ef; [discriminate|].
    assert (Hin : In r (filter (drawn (mo_now (mg_opts m0)) (mg_pixel m0) (mg_width m0) p) l)) by (rewrite Ef; now left).
    apply filter_In in Hin. destruct Hin as [Hin Hdr].
    rewrite Forall_forall in HR. destruct (HR r Hin) as (R1 & R2 & R3 & R4).
    unfold drawn, px_hi, px_lo in Hdr. cbn [mg_opts mg_pixel mg_width m0] in Hdr.
    apply andb_true_iff in Hdr. destruct Hdr as [_ Hdr]. apply orb_true_iff in Hdr. destruct Hdr; nia.
Qed.

(** ** totality *)
Definition mergeable (o : moptions) (r : drecord) : bool :=
  beqb (d_kind r) s_tdigest && tp_valid (mo_params o) (d_dist r).
Definition all_loadable (o : moptions) : Prop := tp_new (mo_params o) = true /\ forall l r, merge (mo_params o) l = Ok r -> mo_sample o r <> None.

Lemma emit_total o a b l : all_loadable o -> l <> [] -> forallb (mergeable o) (map mr_rec l) = true -> exists c, emit o a b l = Ok c.
Proof.
  intros [Hp Hs] Hne Hv. unfold emit. destruct (merge_total (mo_params o) (map mr_rec l)) as (out & Eo); auto.
  - destruct l; [contradiction|discriminate].
  - rewrite Eo. cbn [bind]. destruct (mo_sample o out) eqn:E; [eauto|]. exfalso. eapply Hs; eassumption.
Qed.
Lemma pick_in l ix x : In x (pick l ix) -> In x l.
Proof.
  unfold pick. rewrite in_flat_map. intros (i & _ & H). destruct (nth_error l i) eqn:E; [|contradiction].
  destruct H as [<-|[]]. eapply nth_error_In; eauto.
Qed.
Lemma candidates_lt px l : forall i x, In x (candidates px i l) -> (x < i + length l)%nat.
Proof.
  induction l as [|mr l IH]; intros i x H; cbn in H; [contradiction|]. cbn [length].
  destruct (covers px mr); [destruct H as [<-|H]; [lia|]|]; apply IH in H; lia.
Qed.
Lemma pick_nonempty l t ix : (t < length l)%nat -> pick l (t :: ix) <> [].
Proof.
  intros H. cbn [pick flat_map]. apply nth_error_Some in H. destruct (nth_error l t); [discriminate|contradiction].
Qed.
Lemma pick_valid o l ix : forallb (mergeable o) (map mr_rec l) = true -> forallb (mergeable o) (map mr_rec (pick l ix)) = true.
Proof.
  rewrite !forallb_forall. intros H r Hr. apply in_map_iff in Hr. destruct Hr as (mr & <- & Hm). apply pick_in in Hm.
  apply H. now apply in_map.
Qed.
Lemma loop_total o recs : all_loadable o -> forallb (mergeable o) (map mr_rec recs) = true ->
  forall n px te en cols, (forall t, In t te -> (t < length recs)%nat) ->
  exists te' en' cols', completed_loop o recs n px te en cols = Ok (te', en', cols') /\ forall t, In t te' -> (t < length recs)%nat.
Proof.
  intros Ho Hv. induction n as [|n IH]; intros px te en cols Hte; cbn [completed_loop]; [eauto 6|].
  assert (Hc : forall t, In t (candidates px 0 recs) -> (t < length recs)%nat) by (intros t Ht; apply candidates_lt in Ht; lia).
  destruct (ints_eq _ _); [auto|]. destruct te as [|t te]; [auto|].
  destruct (emit_total o (px + 1) en (pick recs (t :: te))) as (c & ->); auto.
  - apply pick_nonempty. apply Hte. now left.
  - now apply pick_valid.
  - cbn [bind]. auto.
Qed.
Lemma completed_total m px : all_loadable (mg_opts m) -> forallb (mergeable (mg_opts m)) (map mr_rec (mg_records m)) = true ->
  exists m', completed px m = Ok m' /\ same_px m m' /\ forallb (mergeable (mg_opts m)) (map mr_rec (mg_records m')) = true.
Proof.
  intros Ho Hv. unfold completed.
  destruct (loop_total _ _ Ho Hv (Z.to_nat (mg_completed m - px)) (mg_completed m - 1) [] 0 (mg_columns m)) as (te & en & cols & -> & Hte); [intros ? []|].
  cbn [bind]. destruct te as [|t te]; cbn [bind].
  - eexists. split; [reflexivity|]. split; [repeat split|]. cbn [mg_records]. rewrite forallb_forall in *. intros r Hr.
    apply Hv. apply in_map_iff in Hr. destruct Hr as (mr & <- & Hm). apply filter_In in Hm. apply in_map. tauto.
  - destruct (emit_total (mg_opts m) px en (pick (mg_records m) (t :: te))) as (c & ->); auto.
    + apply pick_nonempty. apply Hte. now left.
    + now apply pick_valid.
    + cbn [bind]. eexists. split; [reflexivity|]. split; [repeat split|]. cbn [mg_records]. rewrite forallb_forall in *. intros r Hr.
      apply Hv. apply in_map_iff in Hr. destruct Hr as (mr & <- & Hm). apply filter_In in Hm. apply in_map. tauto.
Qed.
Lemma mg_pushes_total l : forall m, mg_width m <> 0 -> mg_pixel m <> 0 -> all_loadable (mg_opts m) ->
  forallb (mergeable (mg_opts m)) (map mr_rec (mg_records m)) = true -> forallb (mergeable (mg_opts m)) l = true ->
  exists m', mg_pushes l m = Ok m' /\ same_px m m' /\ forallb (mergeable (mg_opts m)) (map mr_rec (mg_records m')) = true.
Proof.
  induction l as [|r l IH]; intros m Hw Hp Ho Hv Hl; cbn [mg_pushes].
  - exists m. repeat split; auto.
  - cbn [forallb] in Hl. apply andb_true_iff in Hl. destruct Hl as [Hr Hl].
    unfold mg_push, time_to_pixel. replace (mg_width m =? 0) with false by lia. replace (mg_pixel m =? 0) with false by lia. cbn [bind].
    match goal with |- context [completed (?x + 1) m] => destruct (completed_total m (x + 1) Ho Hv) as (m1 & -> & (S1 & S2 & S3) & V1) end.
    cbn [bind].
    match goal with |- context [mg_pushes l ?x] => destruct (IH x) as (m2 & -> & (T1 & T2 & T3) & V2) end.
    + cbn. congruence.
    + cbn. congruence.
    + cbn. now rewrite S1.
    + cbn [mg_opts mg_records]. rewrite S1, map_app, forallb_app. rewrite V1. cbn. now rewrite Hr.
    + cbn [mg_opts]. now rewrite S1.
    + cbn in *. exists m2. split; [reflexivity|]. split; [repeat split; congruence|]. rewrite S1 in V2. exact V2.
Qed.
Lemma mg_render_total o w l : 0 < w < 2 ^ 61 -> w <= mo_duration o < 2 ^ 61 -> all_loadable o -> forallb (mergeable o) l = true ->
  exists cols, mg_render o w l = Ok cols.
Proof.
  intros Hw Hd Ho Hl. unfold mg_render, mg_set_width. replace (w =? 0) with false by lia. cbn [bind mg_opts mg_new mg_records mg_columns].
  rewrite Z.quot_div_nonneg by lia.
  pose proof (Z.div_str_pos (mo_duration o) w ltac:(lia)) as Hps.
  pose proof (Z.div_le_upper_bound (mo_duration o) w (mo_duration o) ltac:(lia) ltac:(nia)) as Hps2.
  rewrite i64_id by (unfold is_i64; lia).
  destruct (mg_pushes_total l (Merger o (mo_duration o / w) w w [] [])) as (m1 & -> & (S1 & S2 & S3) & V1); cbn; auto; try lia.
  unfold mg_finish. cbn in *. destruct (completed_total m1 0) as (m2 & -> & _); [congruence|rewrite S1; exact V1|]. cbn. eauto.
Qed.
