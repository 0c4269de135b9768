(** C89: descriptors and mappings of data files. *)
From Coq Require Import ZArith List Lia Bool.
From Verif Require Import Base Maps Crc Record RecordSpec RecordProofs Pb Meta File FileProofs Convert Cache CacheProofs
  Metric MetricSpec MetricFile MetricPaths MetricProofs MetricRead DbSpec DbProofs DbLog DbClient
  DamageSpec DamageFile DamageInv DamageRepr DamageDb DamageProof Sys Props_Storage.
Import ListNotations.
Open Scope Z_scope.

(** ** Lemmas *)
Definition fresh (k : kernel) : Prop := 0 < k_next k /\ Forall (fun d => d < k_next k) (k_fds k) /\ Forall (fun m => 0 < fst m < k_next k) (k_maps k).
Lemma remove_fresh d l : Forall (fun x => x < d) l -> remove Z.eq_dec d l = l.
Proof. induction 1 as [|x l H _ IH]; [reflexivity|]. cbn [remove]. destruct (Z.eq_dec d x); [lia|]. now rewrite IH. Qed.
(** what a call that makes a file leaves: no descriptor, and the mapping of the
    file, or none, or (a call that fails late) one *)
Definition made (k : kernel) (r : res mfile) (k' : kernel) : Prop :=
  k_fds k' = k_fds k /\ k_next k <= k_next k' /\
  match r with
  | Ok f => k_maps k' = (mf_data f, mf_len f) :: k_maps k /\ k_next k <= mf_data f < k_next k'
  | _ => k_maps k' = k_maps k \/ exists a n, k_maps k' = (a, n) :: k_maps k /\ k_next k <= a < k_next k'
  end.
Ltac made_solve F := destruct F as (F1 & F2 & F3); unfold made, sys_close; cbn [k_fds k_maps k_next];
  split; [cbn [remove]; destruct (Z.eq_dec _ _); [|lia]; apply remove_fresh; exact F2|]; split; [lia|];
  first [split; [reflexivity|cbn; lia] | left; reflexivity | right; eexists; eexists; split; [reflexivity|lia]].
Lemma create_made size cap e k : fresh k -> let '(_, r, _, k') := create_file size cap e k in made k r k'.
Proof.
  intros F. unfold create_file, sys_open. destruct (call e) as [[|] e1]; [|split; [reflexivity|split; [lia|left; reflexivity]]].
  destruct (_ || _ || _); [made_solve F|]. destruct (cap =? 0); [made_solve F|]. destruct (negb _); [made_solve F|]. cbv zeta.
  destruct (call e1) as [ok e2]. destruct (negb ok || _); [made_solve F|]. unfold sys_mmap. destruct (call e2) as [[|] e3]; [|made_solve F].
  destruct (size <? 0); [made_solve F|]. destruct (writeMetadata _ _); made_solve F.
Qed.
Lemma open_made c e k : fresh k -> let '(r, _, k') := open_file c e k in made k r k'.
Proof.
  intros F. unfold open_file. destruct c as [c|]; [|split; [reflexivity|split; [lia|left; reflexivity]]].
  unfold sys_open. destruct (call e) as [[|] e1]; [|split; [reflexivity|split; [lia|left; reflexivity]]].
  destruct (call e1) as [ok e2]. destruct (negb ok); [made_solve F|]. destruct (_ <? _); [made_solve F|].
  unfold sys_mmap. destruct (call e2) as [[|] e3]; [|made_solve F].
  destruct (readMetadata c); [destruct (_ <? _); made_solve F|made_solve F..].
Qed.
Lemma made_fresh k r k' : fresh k -> made k r k' -> fresh k'.
Proof.
  intros (F1 & F2 & F3) (M1 & M2 & M3). unfold fresh. rewrite M1. split; [lia|]. split; [eapply Forall_impl; [|exact F2]; cbn; lia|].
  assert (W : Forall (fun m : Z * Z => 0 < fst m < k_next k') (k_maps k)) by (eapply Forall_impl; [|exact F3]; cbn; lia).
  destruct r; [destruct M3 as [-> M3]|destruct M3 as [->|(a & n & -> & M3)]..]; try exact W; constructor; auto; cbn [fst]; lia.
Qed.

(** the mapping of a file *)
Definition mapping (f : mfile) : Z * Z := (mf_data f, mf_len f).
Definition sound (p : proc) : Prop :=
  fresh (p_kernel p) /\ k_fds (p_kernel p) = [] /\ NoDup (map fst (k_maps (p_kernel p))) /\
  incl (map mapping (p_held p)) (k_maps (p_kernel p)) /\ NoDup (map mf_data (p_held p)).
Lemma without_incl {A} (l : list A) : forall i, incl (without i l) l.
Proof. induction l as [|x l IH]; intros [|i]; cbn [without]; [apply incl_refl..|apply incl_tl, incl_refl|]. intros y [->|H]; [now left|right; now apply (IH i)]. Qed.
Lemma without_nodup {A B} (g : A -> B) (l : list A) : forall i, NoDup (map g l) -> NoDup (map g (without i l)).
Proof.
  induction l as [|x l IH]; intros [|i] H; cbn [without map] in *; try exact H; inversion H as [|? ? N D]; subst; [exact D|]. constructor; [|now apply IH].
  intros I. apply N. apply in_map_iff in I as (y & E & I). apply in_map_iff. exists y. split; [exact E|]. now apply (without_incl l i).
Qed.
Lemma without_notin {A B} (g : A -> B) (l : list A) : forall i x, nth_error l i = Some x -> NoDup (map g l) -> forall y, In y (without i l) -> g y <> g x.
Proof.
  induction l as [|z l IH]; intros [|i] x E H y I; cbn [nth_error without map] in *; try discriminate; inversion H as [|? ? N D]; subst.
  - injection E as ->. intros G. apply N. rewrite <- G. now apply in_map.
  - destruct I as [->|I]; [|now apply (IH i x)]. intros G. apply N. rewrite G. apply in_map. eapply nth_error_In, E.
Qed.
Lemma unmap_incl a n l : incl (unmap a n l) l.
Proof. induction l as [|[b m] l IH]; [apply incl_refl|]. cbn [unmap]. destruct (_ && _); [apply incl_tl, incl_refl|]. intros y [->|H]; [now left|right; now apply IH]. Qed.
Lemma unmap_keeps a n l x : In x l -> fst x <> a -> In x (unmap a n l).
Proof.
  induction l as [|[b m] l IH]; [auto|]. intros I N. cbn [unmap]. destruct (Z.eqb_spec b a) as [->|Hb]; cbn [andb].
  - destruct (m =? n); destruct I as [<-|I]; try contradiction; [exact I|right; auto].
  - destruct I as [<-|I]; [now left|right; auto].
Qed.
Lemma unmap_nodup a n l : NoDup (map fst l) -> NoDup (map fst (unmap a n l)).
Proof.
  induction l as [|[b m] l IH]; intros H; [exact H|]. cbn [unmap map fst] in *. inversion H as [|? ? N D]; subst. destruct (_ && _); [exact D|]. cbn [map fst]. constructor; [|now apply IH].
  intros I. apply N. apply in_map_iff in I as (y & E & I). apply in_map_iff. exists y. split; [exact E|]. now apply (unmap_incl a n l).
Qed.
Lemma made_sound k held r k' : sound (Proc k held) -> made k r k' -> sound (Proc k' (match r with Ok f => f :: held | _ => held end)).
Proof.
  intros (F & D & N & I & H) M. pose proof (made_fresh _ _ _ F M) as F'. destruct M as (M1 & M2 & M3). cbn [p_kernel p_held] in *.
  assert (G : forall a n, k_next k <= a -> ~ In a (map fst ((a, n) :: k_maps k)) -> False) by (intros a n _ X; apply X; now left). clear G.
  assert (Fr : forall a, k_next k <= a -> ~ In a (map fst (k_maps k))).
  { intros a Ha X. apply in_map_iff in X as (y & <- & X). destruct F as (_ & _ & F3). rewrite Forall_forall in F3. specialize (F3 y X). lia. }
  unfold sound. cbn [p_kernel p_held]. rewrite M1. split; [exact F'|]. split; [exact D|].
  destruct r as [f| | |]; [destruct M3 as [-> M3]|destruct M3 as [->|(a & n & -> & M3)]..]; try (split; [exact N|split; [exact I|exact H]]).
  all: split; [cbn [map fst]; constructor; [apply Fr; lia|exact N]|].
  - split; [cbn [map]; intros y [<-|Hy]; [now left|right; now apply I]|]. cbn [map]. constructor; [|exact H].
    intros X. apply in_map_iff in X as (y & E & X). apply (Fr (mf_data f)); [lia|]. apply in_map_iff. exists (mapping y). split; [exact E|]. apply I. now apply in_map.
  - split; [apply incl_tl, I|exact H].
  - split; [apply incl_tl, I|exact H].
  - split; [apply incl_tl, I|exact H].
Qed.
Lemma step_sound o e p : sound p -> let '(_, _, p') := f_step o e p in sound p'.
Proof.
  intros S. destruct p as [k held]. assert (F : fresh k) by apply S. destruct o as [size cap|c|i|i]; cbn [f_step p_kernel p_held].
  - pose proof (create_made size cap e k F) as M. destruct (create_file size cap e k) as [[[c r] e'] k']. pose proof (made_sound k held r k' S M) as X. destruct r; exact X.
  - pose proof (open_made c e k F) as M. destruct (open_file c e k) as [[r e'] k']. pose proof (made_sound k held r k' S M) as X. destruct r; exact X.
  - destruct (nth_error held i); [|exact S]. unfold sync_file, sys_msync. destruct (call e). exact S.
  - destruct (nth_error held i) as [f|] eqn:E; [|exact S]. unfold close_file. destruct S as (_ & D & N & I & H). cbn [p_kernel p_held] in *.
    assert (K : incl (map mapping (without i held)) (k_maps k)) by (intros y Hy; apply in_map_iff in Hy as (g & <- & Hy); apply I, in_map; now apply (without_incl held i)).
    destruct (mf_data f =? 0) eqn:Z0; cbn [negb].
    + split; [exact F|]. split; [exact D|]. split; [exact N|]. split; [exact K|now apply without_nodup].
    + unfold sys_munmap. destruct (call_unmap e) as [[|] e'].
      * destruct F as (F1 & F2 & F3). split; [split; [exact F1|split; [exact F2|]]|]; cbn [p_kernel k_maps k_fds k_next p_held].
        -- apply Forall_forall. intros y Hy. rewrite Forall_forall in F3. apply F3. now apply (unmap_incl (mf_data f) (mf_len f)).
        -- split; [exact D|]. split; [now apply unmap_nodup|]. split; [|now apply without_nodup].
           intros y Hy. apply unmap_keeps; [now apply K|]. apply in_map_iff in Hy as (g & <- & Hy). exact (without_notin mf_data held i f E H g Hy).
      * split; [exact F|]. split; [exact D|]. split; [exact N|]. split; [exact K|now apply without_nodup].
Qed.
Lemma run_sound os : forall e p, sound p -> let '(_, _, p') := f_run os e p in sound p'.
Proof.
  induction os as [|o os IH]; intros e p S; [exact S|]. cbn [f_run]. pose proof (step_sound o e p S) as X. destruct (f_step o e p) as [[r e1] p1]. specialize (IH e1 p1 X). destruct (f_run os e1 p1) as [[rs e2] p2]. exact IH.
Qed.
Definition p_init : proc := Proc k_init [].
Lemma init_sound : sound p_init.
Proof. unfold sound, fresh. cbn. repeat split; try constructor; try lia. intros x []. Qed.

(** ** C89 *)
(** No call leaves a descriptor open, whatever fails. *)
Theorem C89_descriptors : forall os e, let '(_, _, p) := f_run os e p_init in k_fds (p_kernel p) = [].
Proof. intros os e. pose proof (run_sound os e p_init init_sound) as S. destruct (f_run os e p_init) as [[rs e'] p]. apply S. Qed.
Print Assumptions C89_descriptors.

(** A file keeps its mapping until it is closed, and no two files share one,
    whatever the calls are and whatever fails: data is never read or written
    through an address that was unmapped. *)
Theorem C89_mapped_until_closed : forall os e, let '(_, _, p) := f_run os e p_init in
  (forall f, In f (p_held p) -> In (mf_data f, mf_len f) (k_maps (p_kernel p))) /\
  NoDup (map mf_data (p_held p)) /\ NoDup (map fst (k_maps (p_kernel p))).
Proof.
  intros os e. pose proof (run_sound os e p_init init_sound) as S. destruct (f_run os e p_init) as [[rs e'] p]. destruct S as (_ & _ & N & I & H).
  split; [|split; [exact H|exact N]]. intros f Hf. apply I. now apply (in_map mapping).
Qed.
Print Assumptions C89_mapped_until_closed.

(** a call on a file whose first record can be read, or that makes a file with a
    usable record size (the process need not get far enough: any call may fail) *)
Definition usable (o : fcall) : Prop :=
  match o with
  | FCreate size cap => exists g, snd (createFile size cap) = Ok g
  | FOpen (Some c) => len c < recordHeaderSize \/ exists g, openFile c = Ok g
  | _ => True
  end.
Lemma call_unmaps e : snd (snd (call e)) = snd e.
Proof. unfold call. destruct e as [[|b l] u]; reflexivity. Qed.
Lemma create_exact size cap e k g : snd (createFile size cap) = Ok g -> let '(_, r, e', k') := create_file size cap e k in
  snd e' = snd e /\ k_maps k' = (match r with Ok f => [mapping f] | _ => [] end) ++ k_maps k.
Proof.
  intros G. unfold create_file, sys_open. pose proof (call_unmaps e) as U1. destruct (call e) as [[|] e1]; [|split; [exact U1|reflexivity]]. cbn [fst snd] in U1.
  unfold createFile in G. destruct (_ || _ || _); [discriminate|]. destruct (cap =? 0); [discriminate|]. destruct (negb (i32 _ =? _)); [discriminate|]. cbv zeta in *.
  pose proof (call_unmaps e1) as U2. destruct (call e1) as [ok e2]. cbn [fst snd] in U2. destruct (size * (cap + 1) <=? 0); [discriminate|]. destruct ok; cbn [negb orb]; [|split; [congruence|reflexivity]].
  unfold sys_mmap. pose proof (call_unmaps e2) as U3. destruct (call e2) as [[|] e3]; cbn [fst snd] in U3; [|split; [congruence|reflexivity]].
  destruct (size <? 0); [discriminate|]. destruct (writeMetadata _ _); try discriminate. split; [congruence|reflexivity].
Qed.
Lemma open_exact c e k : usable (FOpen c) -> let '(r, e', k') := open_file c e k in
  snd e' = snd e /\ k_maps k' = (match r with Ok f => [mapping f] | _ => [] end) ++ k_maps k.
Proof.
  intros G. unfold open_file. pose proof (call_unmaps e) as U1. destruct c as [c|]; [|split; [exact U1|reflexivity]]. unfold sys_open. destruct (call e) as [[|] e1]; [|split; [exact U1|reflexivity]]. cbn [fst snd] in U1.
  pose proof (call_unmaps e1) as U2. destruct (call e1) as [ok e2]. cbn [fst snd] in U2. destruct ok; cbn [negb]; [|split; [congruence|reflexivity]].
  cbn [usable] in G. unfold openFile in G. destruct (Z.ltb_spec (len c) recordHeaderSize) as [L|L]; [split; [congruence|reflexivity]|].
  destruct G as [G|[g G]]; [lia|]. unfold sys_mmap. pose proof (call_unmaps e2) as U3. destruct (call e2) as [[|] e3]; cbn [fst snd] in U3; [|split; [congruence|reflexivity]].
  unfold bind in G. destruct (readMetadata c); try discriminate. destruct (_ <? _); [discriminate|]. split; [congruence|reflexivity].
Qed.
Lemma without_unmap held : forall i f, nth_error held i = Some f -> NoDup (map mf_data held) -> unmap (mf_data f) (mf_len f) (map mapping held) = map mapping (without i held).
Proof.
  induction held as [|g held IH]; intros [|i] f E N; cbn [nth_error] in E; try discriminate; inversion N as [|? ? N1 N2]; subst; cbn [map unmap without mapping].
  - injection E as ->. unfold mapping. now rewrite !Z.eqb_refl.
  - unfold mapping at 1. destruct (Z.eqb_spec (mf_data g) (mf_data f)) as [X|X]; [exfalso; apply N1; rewrite X; apply in_map; eapply nth_error_In, E|]. cbn [andb]. f_equal. now apply IH.
Qed.
(** With such files nothing leaks: as long as munmap works, the mappings of the
    process are those of the files it holds, one each, whichever other calls fail. *)
Theorem C89_no_leak : forall os e, Forall usable os -> snd e = [] -> let '(_, _, p) := f_run os e p_init in
  k_maps (p_kernel p) = map (fun f => (mf_data f, mf_len f)) (p_held p).
Proof.
  intros os e U E. change (let '(_, _, p) := f_run os e p_init in k_maps (p_kernel p) = map mapping (p_held p)).
  assert (G : forall os e p, Forall usable os -> snd e = [] -> sound p -> k_maps (p_kernel p) = map mapping (p_held p) -> let '(_, _, p') := f_run os e p in k_maps (p_kernel p') = map mapping (p_held p')).
  { clear. induction os as [|o os IH]; intros e p U E S M; [exact M|]. inversion U as [|? ? Uo Us]; subst. cbn [f_run].
    pose proof (step_sound o e p S) as S1.
    assert (X : let '(_, e1, p1) := f_step o e p in snd e1 = [] /\ k_maps (p_kernel p1) = map mapping (p_held p1)).
    { destruct p as [k held]. cbn [p_kernel p_held] in *. destruct o as [size cap|c|i|i]; cbn [f_step p_kernel p_held].
      - destruct Uo as [g Uo]. pose proof (create_exact size cap e k g Uo) as C. destruct (create_file size cap e k) as [[[c r] e'] k']. destruct C as [C1 C2]. rewrite M in C2. destruct r; cbn [p_kernel p_held]; (split; [congruence|exact C2]).
      - pose proof (open_exact c e k Uo) as C. destruct (open_file c e k) as [[r e'] k']. destruct C as [C1 C2]. rewrite M in C2. destruct r; cbn [p_kernel p_held]; (split; [congruence|exact C2]).
      - destruct (nth_error held i); [|split; [exact E|exact M]]. unfold sync_file, sys_msync. pose proof (call_unmaps e) as C. destruct (call e) as [b e']. cbn [snd] in C. split; [congruence|exact M].
      - destruct (nth_error held i) as [f|] eqn:Ef; [|split; [exact E|exact M]]. unfold close_file. destruct S as (F & _ & _ & I & N). cbn [p_kernel p_held] in *.
        assert (Z0 : mf_data f <> 0). { destruct F as (_ & _ & F3). rewrite Forall_forall in F3. pose proof (F3 (mapping f)) as F4. cbn [fst mapping] in F4. specialize (F4 (I _ (in_map mapping _ _ (nth_error_In _ _ Ef)))). lia. }
        apply Z.eqb_neq in Z0. rewrite Z0. cbn [negb]. unfold sys_munmap, call_unmap. rewrite E. cbn [p_kernel p_held k_maps]. split; [exact E|]. rewrite M. now apply without_unmap. }
    destruct (f_step o e p) as [[r e1] p1]. destruct X as [X1 X2]. specialize (IH e1 p1 Us X1 S1 X2). destruct (f_run os e1 p1) as [[rs e2] p2]. exact IH. }
  apply G; auto. apply init_sound.
Qed.
Print Assumptions C89_no_leak.

(** When no call fails these are the functions the rest of this model uses. *)
Theorem C89_same_files : forall size cap c u k,
  (let '(d, r, _, _) := create_file size cap ([], u) k in
     d = fst (createFile size cap) /\
     match r with Ok f => snd (createFile size cap) = Ok (mf_geom f) | Err => snd (createFile size cap) = Err | Panic => snd (createFile size cap) = Panic | Diverge => False end) /\
  (let '(r, _, _) := open_file (Some c) ([], u) k in
     match r with Ok f => openFile c = Ok (mf_geom f) | Err => openFile c = Err | Panic => openFile c = Panic | Diverge => openFile c = Diverge end).
Proof.
  intros size cap c u k. split.
  - unfold create_file, createFile, sys_open, call. cbn [fst]. destruct (_ || _ || _); [auto|]. destruct (cap =? 0); [auto|]. destruct (negb (i32 _ =? _)); [auto|].
    cbv zeta. cbn [negb orb]. destruct (size * (cap + 1) <=? 0); [auto|]. unfold sys_mmap, call. cbn [fst]. destruct (size <? 0); [auto|]. destruct (writeMetadata _ _); auto.
  - unfold open_file, openFile, sys_open, call, bind. cbn [fst negb]. destruct (_ <? _); [auto|]. unfold sys_mmap, call. cbn [fst]. destruct (readMetadata c); auto. destruct (_ <? _); auto.
Qed.
Print Assumptions C89_same_files.

(** In a database, the files are such files: after any history every data file of
    every metric can be opened, and creating one succeeds. *)
Theorem C89_database : forall root size cap max handles rand ops st outs,
  history_ok root size cap handles rand ops ->
  c_run ops (db_empty root size cap max handles rand) = (st, outs) ->
  (forall name i ino, linked st name i ino -> usable (FOpen (Some (contents st ino)))) /\
  (forall size' cap', opts_ok size' cap' -> usable (FCreate size' cap')).
Proof.
  intros root size cap max handles rand ops st outs (Hr & Hp & Hok & Hn) E.
  destruct (history_exact root size cap max handles rand ops Hr Hp Hok ltac:(lia)) as (st0 & a & outs0 & E0 & HR & _).
  rewrite E0 in E. injection E as -> ->. split.
  - intros name i ino Hl. right. destruct (linked_at _ _ _ HR name i ino Hl) as (am & kk & f & c & _ & _ & _ & Hc & HF). unfold contents. rewrite Hc. eexists. exact (fr_open _ _ repr_exact _ _ _ _ HF).
  - intros size' cap' H. destruct (rep_create size' cap' H) as (c & E2 & _). exists (Geom cap' size'). rewrite E2. reflexivity.
Qed.
Print Assumptions C89_database.

(** Damaged files leak: every time a file whose first record cannot be used is
    opened, the mapping made for it stays, although nothing refers to it (file.go:115-122). *)
Theorem C89_damaged_file_refuted : forall c u n, recordHeaderSize <= len c -> openFile c = Err ->
  exists k, f_run (repeat (FOpen (Some c)) n) ([], u) p_init = (repeat Err n, ([], u), Proc k []) /\ List.length (k_maps k) = n.
Proof.
  intros c u n L E. assert (G : forall n k, exists k', f_run (repeat (FOpen (Some c)) n) ([], u) (Proc k []) = (repeat Err n, ([], u), Proc k' []) /\ List.length (k_maps k') = (n + List.length (k_maps k))%nat).
  { clear n. induction n as [|n IH]; intros k; [exists k; split; reflexivity|]. cbn [repeat f_run f_step p_kernel p_held].
    assert (X : exists k1, open_file (Some c) ([], u) k = (Err, ([], u), k1) /\ List.length (k_maps k1) = S (List.length (k_maps k))).
    { unfold open_file, sys_open, call. cbn [fst negb]. destruct (Z.ltb_spec (len c) recordHeaderSize) as [?|_]; [lia|]. unfold sys_mmap, call. cbn [fst]. unfold openFile in E. destruct (Z.ltb_spec (len c) recordHeaderSize); [lia|].
      unfold bind in E. destruct (readMetadata c); try discriminate; [destruct (_ <? _); [|discriminate]|]; eexists; (split; [reflexivity|reflexivity]). }
    destruct X as (k1 & -> & L1). destruct (IH k1) as (k' & -> & L2). exists k'. split; [reflexivity|]. lia. }
  destruct (G n k_init) as (k & E1 & L1). exists k. split; [exact E1|]. rewrite L1. cbn. lia.
Qed.
Print Assumptions C89_damaged_file_refuted.
(** So does a file made with records too small for its metadata (file.go:67-72). *)
Theorem C89_small_records_refuted : exists k, f_run (repeat (FCreate 22 10) 3) ([], []) p_init = (repeat Err 3, ([], []), Proc k []) /\ List.length (k_maps k) = 3%nat.
Proof. eexists. split; vm_compute; reflexivity. Qed.
Print Assumptions C89_small_records_refuted.

(** Errors of msync and munmap are never reported: FullSync, FullAsync and Close
    answer without error whatever happens, also when the mapping is still there
    (mmap.go:26-29, 34-38 wrap the error that is nil, not the one of the call). *)
Theorem C89_errors_lost_refuted : forall f e k, fst (fst (sync_file f e k)) = Ok tt /\ fst (fst (close_file f e k)) = Ok tt /\
  (forall l u, e = (l, false :: u) -> snd (close_file f e k) = k).
Proof.
  intros f e k. split; [unfold sync_file, sys_msync; now destruct (call e)|]. split.
  - unfold close_file. destruct (negb _); [|reflexivity]. unfold sys_munmap. destruct (call_unmap e) as [[|] ?]; reflexivity.
  - intros l u ->. unfold close_file. destruct (negb _); reflexivity.
Qed.
Print Assumptions C89_errors_lost_refuted.

(** a run: two files made (the second try of the second works: first mmap fails),
    one opened, synced, closed, then a damaged one *)
Definition ex_file : list Z := fst (createFile 79 3).
Definition ex_calls : list fcall := [FCreate 79 3; FCreate 100 2; FCreate 100 2; FOpen (Some ex_file); FSync 0; FClose 1; FOpen None].
Example C89_example : Forall usable ex_calls /\
  exists e p, f_run ex_calls ([true; true; true; true; true; false], []) p_init = ([Ok tt; Err; Ok tt; Ok tt; Ok tt; Ok tt; Err], e, p) /\
    map (fun f => (mf_len f, g_size (mf_geom f))) (p_held p) = [(316, 79); (316, 79)] /\ List.length (k_maps (p_kernel p)) = 2%nat.
Proof.
  split.
  - assert (U : forall size cap g, snd (createFile size cap) = Ok g -> usable (FCreate size cap)) by (intros; eexists; eassumption).
    assert (O : usable (FOpen (Some ex_file))) by (right; eexists; vm_compute; reflexivity).
    unfold ex_calls. repeat apply Forall_cons; try exact I; try exact O; try apply Forall_nil; eapply U; vm_compute; reflexivity.
  - eexists. eexists. split; [vm_compute; reflexivity|]. split; vm_compute; reflexivity.
Qed.
Example C89_damaged_example : recordHeaderSize <= len (repeat 0 100) /\ openFile (repeat 0 100) = Err.
Proof. split; [vm_compute; discriminate|vm_compute; reflexivity]. Qed.
