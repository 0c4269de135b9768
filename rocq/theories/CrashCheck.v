(** Executable recognisers of crash states, for the concrete witnesses in
    Props_Crash.v only. *)
From Coq Require Import ZArith List Lia Bool.
From Verif Require Import Base Maps Record Pb Meta Convert File Cache Metric Crash.
Import ListNotations.
Open Scope Z_scope.

Fixpoint tornb (a b t : list Z) : bool :=
  match a, b, t with
  | [], [], [] => true
  | x :: a, y :: b, z :: t => ((z =? x) || (z =? y)) && tornb a b t
  | _, _, _ => false
  end.

Lemma tornb_ok : forall a b t, tornb a b t = true -> torn a b t.
Proof.
  intros a b t H. split.
  - revert b t H. induction a as [|x a IH]; intros [|y b] [|z t]; cbn; try discriminate; try reflexivity.
    rewrite andb_true_iff. intros [_ H]. apply IH in H. unfold len in *. cbn [length]. lia.
  - intros i Hi. unfold at_. remember (Z.to_nat i) as k eqn:Ek. clear Ek Hi i. revert b t H k.
    induction a as [|x a IH]; intros [|y b] [|z t]; cbn [tornb]; try discriminate.
    + intros _ k. left. reflexivity.
    + rewrite andb_true_iff, orb_true_iff, !Z.eqb_eq. intros [H H'] [|k]; cbn [nth]; [exact H|]. now apply IH.
Qed.

(** where a write will store its records: the state, the file, head, count *)
Definition write_point (name data : list Z) (end_ : Z) (st : db) : option (db * handle * Z * Z) :=
  match newMetric name false st with
  | (st, Ok m) =>
      match acquireLast m st with
      | (st, Ok (f, head, m)) =>
          let g := h_geom f in
          let c := contents st (h_ino f) in
          let head := head + 1 in
          if (if f_has_record g head c then
                match f_record g head c with Ok r => end_ <=? r_end r | _ => true end
              else false) then None
          else
          match numRecords (len data) (g_size g) with
          | Ok nr => if (nr =? 0) || (head - nr <? 0) then None else Some (st, f, head, nr)
          | _ => None
          end
      | _ => None
      end
  | _ => None
  end.

Lemma write_point_ok p name start end_ data st st' f head nr t :
  write_point name data end_ st = Some (st', f, head, nr) ->
  p = PRecords \/ p = PMetadata ->
  crash_into p f head nr start end_ data st' t ->
  crash_db_write p name start end_ data st t.
Proof.
  unfold write_point, crash_db_write. intros H Hp Hc.
  assert (match newMetric name false st with
          | (st, Ok m) => crash_m_Write p m start end_ data st t
          | _ => False end).
  2:{ destruct Hp as [-> | ->]; right; exact H0. }
  destruct (newMetric name false st) as [st1 [m| | |]]; try discriminate.
  right. destruct (acquireLast m st1) as [st2 [[[f2 h2] m2]| | |]]; try discriminate.
  unfold crash_write_with.
  destruct (f_has_record (h_geom f2) (h2 + 1) (contents st2 (h_ino f2))).
  - destruct (f_record _ _ _) as [r| | |]; try discriminate. destruct (end_ <=? r_end r); [discriminate|].
    destruct (numRecords _ _) as [nr2| | |]; try discriminate.
    destruct (nr2 =? 0); [discriminate|]. destruct (h2 + 1 - nr2 <? 0); [discriminate|].
    injection H as <- <- <- <-. exact Hc.
  - destruct (numRecords _ _) as [nr2| | |]; try discriminate.
    destruct (nr2 =? 0); [discriminate|]. destruct (h2 + 1 - nr2 <? 0); [discriminate|].
    injection H as <- <- <- <-. exact Hc.
Qed.

(** the states inside the stores of the records: [k] records stored, record k
    torn with the bytes selected by [sel] (by index in the file) *)
Definition mix (sel : Z -> bool) (a b : list Z) : list Z :=
  map (fun '(i, (x, y)) => if sel i then y else x)
      (combine (map Z.of_nat (seq 0 (length a))) (combine a b)).

Lemma tornb_mix sel : forall a b, length a = length b -> tornb a b (mix sel a b) = true.
Proof.
  intros a b. unfold mix. generalize 0%nat. revert b.
  induction a as [|x a IH]; intros [|y b] s H; cbn in *; try discriminate; auto.
  rewrite IH by lia. destruct (sel (Z.of_nat s)); rewrite Z.eqb_refl, ?orb_true_r; reflexivity.
Qed.

Definition stop_records (k : nat) (sel : Z -> bool) (name : list Z) (start end_ : Z) (data : list Z) (st : db) : option db :=
  match write_point name data end_ st with
  | Some (st', f, head, nr) =>
      match iterateRecords start end_ data (g_size (h_geom f)) with
      | Ok recs =>
          let c := contents st' (h_ino f) in
          match set_records (h_geom f) (head - nr) (firstn k recs) c with
          | (c1, Ok _) =>
              match skipn k recs with
              | r :: _ =>
                  match f_set_record (h_geom f) (head - nr + Z.of_nat k) r c1 with
                  | Ok c2 => if len c1 =? len c2 then Some (set_contents st' (h_ino f) (mix sel c1 c2)) else None
                  | _ => None
                  end
              | [] => Some (set_contents st' (h_ino f) c1)
              end
          | _ => None
          end
      | _ => None
      end
  | None => None
  end.

Lemma stop_records_sound g : forall k recs head c c1 sel,
  set_records g head (firstn k recs) c = (c1, Ok tt) ->
  match skipn k recs with
  | r :: _ => exists c2, f_set_record g (head + Z.of_nat k) r c1 = Ok c2 /\ len c1 = len c2 /\
              crash_records g head recs c (mix sel c1 c2)
  | [] => crash_records g head recs c c1
  end \/ match skipn k recs with r :: _ =>
     match f_set_record g (head + Z.of_nat k) r c1 with Ok c2 => len c1 <> len c2 | _ => True end | [] => False end.
Proof.
  induction k as [|k IH]; intros recs head c c1 sel H.
  - cbn [firstn set_records] in H. injection H as <-. cbn [skipn]. destruct recs as [|r recs].
    + left. reflexivity.
    + rewrite Z.add_0_r. destruct (f_set_record g head r c) as [c2| | |] eqn:E; [|right; exact I..].
      destruct (Z.eq_dec (len c) (len c2)) as [El|El]; [|right; exact El].
      left. exists c2. split; [reflexivity|]. split; [exact El|]. cbn [crash_records]. rewrite E. left.
      apply tornb_ok, tornb_mix. unfold len in El. lia.
  - destruct recs as [|r recs].
    + cbn in H. injection H as <-. left. reflexivity.
    + cbn [firstn set_records skipn] in *.
      destruct (f_set_record g head r c) as [c0| | |] eqn:E; try discriminate.
      specialize (IH recs (head + 1) c0 c1 sel H).
      replace (head + 1 + Z.of_nat k) with (head + Z.of_nat (S k)) in IH by lia.
      destruct IH as [IH|IH]; [left|right; exact IH].
      destruct (skipn k recs) as [|r' rest] eqn:Es.
      * cbn [crash_records]. rewrite E. right. exact IH.
      * destruct IH as (c2 & E2 & El & Hc). exists c2. split; [exact E2|]. split; [exact El|].
        cbn [crash_records]. rewrite E. right. exact Hc.
Qed.

Lemma stop_records_ok k sel name start end_ data st t :
  stop_records k sel name start end_ data st = Some t ->
  crash_db_write PRecords name start end_ data st t.
Proof.
  unfold stop_records. destruct (write_point name data end_ st) as [[[[st' f] head] nr]|] eqn:Ew; [|discriminate].
  destruct (iterateRecords _ _ _ _) as [recs| | |] eqn:Ei; try discriminate.
  destruct (set_records _ _ _ _) as [c1 [[]| | |]] eqn:Es; try discriminate. intros H.
  eapply write_point_ok; [exact Ew|now left|].
  destruct (stop_records_sound (h_geom f) k recs (head - nr) _ c1 sel Es) as [Hs|Hs].
  - destruct (skipn k recs) as [|r rest].
    + injection H as <-. exists c1. split; [|reflexivity]. unfold crash_write_records. rewrite Ei. exact Hs.
    + destruct Hs as (c2 & E2 & El & Hc). rewrite E2 in H. rewrite (proj2 (Z.eqb_eq _ _) El) in H.
      injection H as <-. eexists. split; [|reflexivity]. unfold crash_write_records. rewrite Ei. exact Hc.
  - destruct (skipn k recs) as [|r rest]; [contradiction|].
    destruct (f_set_record _ _ _ _) as [c2| | |]; try discriminate.
    destruct (Z.eqb_spec (len c1) (len c2)); [contradiction|discriminate].
Qed.

(** the records and the payload of the metadata stored, of its header the
    bytes selected by [sel] *)
Definition stop_metadata (sel : Z -> bool) (name : list Z) (start end_ : Z) (data : list Z) (st : db) : option db :=
  match write_point name data end_ st with
  | Some (st', f, head, nr) =>
      match iterateRecords start end_ data (g_size (h_geom f)) with
      | Ok recs =>
          match set_records (h_geom f) (head - nr) recs (contents st' (h_ino f)) with
          | (c1, Ok _) =>
              match f_metadata (h_geom f) c1 with
              | Ok m =>
                  let m' := next_meta m (head - nr - 1) start end_ in
                  match f_set_metadata (h_geom f) m' c1 with
                  | Ok c' =>
                      let c2 := put recordHeaderSize (meta_marshal m') c1 in
                      if len c2 =? len c' then Some (set_contents st' (h_ino f) (mix sel c2 c')) else None
                  | _ => None
                  end
              | _ => None
              end
          | _ => None
          end
      | _ => None
      end
  | None => None
  end.

Lemma stop_metadata_ok sel name start end_ data st t :
  stop_metadata sel name start end_ data st = Some t ->
  crash_db_write PMetadata name start end_ data st t.
Proof.
  unfold stop_metadata. destruct (write_point name data end_ st) as [[[[st' f] head] nr]|] eqn:Ew; [|discriminate].
  destruct (iterateRecords _ _ _ _) as [recs| | |] eqn:Ei; try discriminate.
  destruct (set_records _ _ _ _) as [c1 [[]| | |]] eqn:Es; try discriminate.
  destruct (f_metadata _ _) as [m| | |] eqn:Em; try discriminate.
  destruct (f_set_metadata _ _ _) as [c'| | |] eqn:Ef; try discriminate. cbv zeta.
  match goal with |- (if len ?c =? _ then _ else _) = _ -> _ => set (c2 := c) end.
  destruct (Z.eqb_spec (len c2) (len c')) as [El|]; [|discriminate]. intros [= <-].
  eapply write_point_ok; [exact Ew|now right|]. eexists. split; [|reflexivity].
  unfold crash_write_records. rewrite Ei. exists c1, m. split; [exact Es|]. split; [exact Em|].
  exists c'. split; [exact Ef|]. right. fold c2. apply tornb_ok, tornb_mix. unfold len in El. lia.
Qed.

(** a write that needs a new file: was the oldest unlinked, the state after
    that, the path of the new file *)
Definition new_point (name data : list Z) (end_ : Z) (st : db) : option (bool * db * list Z) :=
  match newMetric name false st with
  | (st, Ok m) =>
      match acquireLast m st with
      | (st, Ok (f, head, m)) =>
          let g := h_geom f in
          let c := contents st (h_ino f) in
          let head := head + 1 in
          if (if f_has_record g head c then
                match f_record g head c with Ok r => end_ <=? r_end r | _ => true end
              else false) then None
          else
          match numRecords (len data) (g_size g) with
          | Ok nr =>
              if (nr =? 0) || negb (head - nr <? 0) || ((t_last m =? 1) && (head =? g_cap g - 1)) then None
              else
                let drop := (w_max st <=? t_last m - t_first m) && (0 <? w_max st) in
                Some (drop,
                      (if drop then
                         let first_path := filenameAt m (t_first m) in
                         osRemove first_path (evictFile first_path st)
                       else st), filenameAt m (t_last m + 1))
          | _ => None
          end
      | _ => None
      end
  | _ => None
  end.

Lemma new_point_ok name start end_ data st drop st' path :
  new_point name data end_ st = Some (drop, st', path) ->
  (drop = true -> crash_db_write PDrop name start end_ data st st') /\
  (forall t, crash_do_create path st' t -> crash_db_write PCreate name start end_ data st t).
Proof.
  unfold new_point, crash_db_write. intros H.
  destruct (newMetric name false st) as [st1 [m| | |]]; try discriminate.
  unfold crash_m_Write.
  destruct (acquireLast m st1) as [st2 [[[f2 h2] m2]| | |]]; try discriminate.
  unfold crash_write_with.
  set (dr := (w_max st2 <=? t_last m2 - t_first m2) && (0 <? w_max st2)) in *.
  destruct (f_has_record (h_geom f2) (h2 + 1) (contents st2 (h_ino f2))).
  - destruct (f_record _ _ _) as [r| | |]; try discriminate. destruct (end_ <=? r_end r); [discriminate|].
    destruct (numRecords _ _) as [nr2| | |]; try discriminate.
    destruct (nr2 =? 0); [discriminate|]. destruct (h2 + 1 - nr2 <? 0); [|discriminate].
    destruct ((t_last m2 =? 1) && _); [discriminate|]. injection H as <- <- <-.
    split; [intros Hd|intros t Ht]; right; right; auto.
  - destruct (numRecords _ _) as [nr2| | |]; try discriminate.
    destruct (nr2 =? 0); [discriminate|]. destruct (h2 + 1 - nr2 <? 0); [|discriminate].
    destruct ((t_last m2 =? 1) && _); [discriminate|]. injection H as <- <- <-.
    split; [intros Hd|intros t Ht]; right; right; auto.
Qed.

(** the new file exists but is still empty (before fallocate / truncate) *)
Definition stop_create (name data : list Z) (end_ : Z) (st : db) : option db :=
  match new_point name data end_ st with
  | Some (_, st', path) =>
      match mget beqb path (w_files st') with
      | Some ino => Some (set_contents st' ino [])
      | None => Some (set_contents (DB (w_ino st') (w_next st' + 1) (mput beqb path (w_next st') (w_files st'))
                  (w_dirs st') (w_toks st') (w_cache st') (w_size st') (w_cap st') (w_max st') (w_root st')) (w_next st') [])
      end
  | None => None
  end.
Lemma stop_create_ok name start end_ data st t : stop_create name data end_ st = Some t ->
  crash_db_write PCreate name start end_ data st t.
Proof.
  unfold stop_create. destruct (new_point name data end_ st) as [[[dr st'] path]|] eqn:E; [|discriminate].
  intros H. apply (proj2 (new_point_ok name start end_ data st dr st' path E)).
  exists []. split; [now left|]. destruct (mget beqb path (w_files st')); now injection H.
Qed.

Definition stop_drop (name data : list Z) (end_ : Z) (st : db) : option db :=
  match new_point name data end_ st with
  | Some (true, st', _) => Some st'
  | _ => None
  end.
Lemma stop_drop_ok name start end_ data st t : stop_drop name data end_ st = Some t ->
  crash_db_write PDrop name start end_ data st t.
Proof.
  unfold stop_drop. destruct (new_point name data end_ st) as [[[[] st'] path]|] eqn:E; try discriminate.
  intros [= <-]. now apply (proj1 (new_point_ok name start end_ data st true st' path E)).
Qed.

(** a new file made, of the first record's bytes those selected by [sel] *)
Definition stop_new_file (sel : Z -> bool) (name : list Z) (start end_ : Z) (data : list Z) (st : db) : option db :=
  match new_point name data end_ st with
  | Some (_, st', path) =>
      match acquireFile path false st' with
      | (st2, Ok f) =>
          let head := g_cap (h_geom f) in
          match numRecords (len data) (g_size (h_geom f)) with
          | Ok nr =>
              if (nr =? 0) || (head - nr <? 0) then None else
              match iterateRecords start end_ data (g_size (h_geom f)) with
              | Ok (r :: _) =>
                  let c := contents st2 (h_ino f) in
                  match f_set_record (h_geom f) (head - nr) r c with
                  | Ok c2 => if len c =? len c2 then Some (set_contents st2 (h_ino f) (mix sel c c2)) else None
                  | _ => None
                  end
              | _ => None
              end
          | _ => None
          end
      | _ => None
      end
  | None => None
  end.
Lemma new_point_into name start end_ data st drop st' path : 
  new_point name data end_ st = Some (drop, st', path) ->
  forall st2 f nr t, acquireFile path false st' = (st2, Ok f) ->
  numRecords (len data) (g_size (h_geom f)) = Ok nr -> (nr =? 0) || (g_cap (h_geom f) - nr <? 0) = false ->
  crash_into PRecords f (g_cap (h_geom f)) nr start end_ data st2 t ->
  crash_db_write PRecords name start end_ data st t.
Proof.
  unfold new_point, crash_db_write. intros H st3 f nr t Ea En E0 Hc.
  apply orb_false_iff in E0. destruct E0 as [E0 E0'].
  destruct (newMetric name false st) as [st1 [m| | |]]; try discriminate.
  unfold crash_m_Write.
  destruct (acquireLast m st1) as [st2 [[[f2 h2] m2]| | |]]; try discriminate.
  unfold crash_write_with.
  set (dr := (w_max st2 <=? t_last m2 - t_first m2) && (0 <? w_max st2)) in *.
  destruct (f_has_record (h_geom f2) (h2 + 1) (contents st2 (h_ino f2))).
  - destruct (f_record _ _ _) as [r| | |]; try discriminate. destruct (end_ <=? r_end r); [discriminate|].
    destruct (numRecords (len data) (g_size (h_geom f2))) as [nr2| | |]; try discriminate.
    destruct (nr2 =? 0); [discriminate|]. destruct (h2 + 1 - nr2 <? 0); [|discriminate].
    destruct ((t_last m2 =? 1) && _); [discriminate|]. injection H as <- <- <-.
    right. right. rewrite Ea, En, E0, E0'. exact Hc.
  - destruct (numRecords (len data) (g_size (h_geom f2))) as [nr2| | |]; try discriminate.
    destruct (nr2 =? 0); [discriminate|]. destruct (h2 + 1 - nr2 <? 0); [|discriminate].
    destruct ((t_last m2 =? 1) && _); [discriminate|]. injection H as <- <- <-.
    right. right. rewrite Ea, En, E0, E0'. exact Hc.
Qed.
Lemma stop_new_file_ok sel name start end_ data st t : stop_new_file sel name start end_ data st = Some t ->
  crash_db_write PRecords name start end_ data st t.
Proof.
  unfold stop_new_file. destruct (new_point name data end_ st) as [[[dr st'] path]|] eqn:E; [|discriminate].
  destruct (acquireFile path false st') as [st2 [f| | |]] eqn:Ea; try discriminate.
  destruct (numRecords _ _) as [nr| | |] eqn:En; try discriminate.
  destruct ((nr =? 0) || _) eqn:E0; [discriminate|].
  destruct (iterateRecords _ _ _ _) as [[|r recs]| | |] eqn:Ei; try discriminate.
  destruct (f_set_record _ _ _ _) as [c2| | |] eqn:Ef; try discriminate.
  destruct (Z.eqb_spec (len (contents st2 (h_ino f))) (len c2)) as [El|]; [|discriminate]. intros [= <-].
  eapply new_point_into; eauto. eexists. split; [|reflexivity]. unfold crash_write_records. rewrite Ei.
  cbn [crash_records]. rewrite Ef. left. apply tornb_ok, tornb_mix. unfold len in El. lia.
Qed.
