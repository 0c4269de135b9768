(** C49, C58: the words a user writes in the configuration file. *)
From Coq Require Import String ZArith List Lia Bool.
From Verif Require Import Base Maps Typeassert Registry Run Server.
Import ListNotations.
Open Scope Z_scope.

Definition field (m : list (list Z * value)) (k : string) : option value := mget beqb (bytes_of k) m.
Arguments field m k%string.

(** The files database of a configuration that has every field, in any order and
    with any others, is opened with exactly these values. *)
Theorem C49_files_words : forall m t dir size cap files buffer drop handles workers,
  field m "directory" = Some (VStr dir) -> field m "size" = Some (VInt64 size) -> field m "cap" = Some (VInt64 cap) -> field m "files" = Some (VInt64 files) ->
  field m "tuning" = Some (VMap t) ->
  field t "buffer" = Some (VInt64 buffer) -> field t "drop" = Some (VBool drop) -> field t "handles" = Some (VInt64 handles) -> field t "workers" = Some (VInt64 workers) ->
  files_maker (VMap m) = Ok (dir, {| fo_size := size; fo_cap := cap; fo_files := files; fo_buffer := buffer; fo_drop := drop; fo_handles := handles; fo_workers := workers |}).
Proof.
  intros m t dir size cap files buffer drop handles workers. unfold field.
  change (bytes_of "directory") with k_directory. change (bytes_of "size") with k_size. change (bytes_of "cap") with k_cap. change (bytes_of "files") with k_files.
  change (bytes_of "tuning") with k_tuning. change (bytes_of "buffer") with k_buffer. change (bytes_of "drop") with k_drop.
  change (bytes_of "handles") with k_handles. change (bytes_of "workers") with k_workers.
  intros H1 H2 H3 H4 H5 H6 H7 H8 H9. unfold files_maker.
  repeat first [rewrite H1|rewrite H2|rewrite H3|rewrite H4|rewrite H5|rewrite H6|rewrite H7|rewrite H8|rewrite H9|progress cbn [aI aroot achild ax apath aStr aInt64 aBool]].
  reflexivity.
Qed.
Print Assumptions C49_files_words.

(** The compression of t-digests and the address of the graphite listener. *)
Theorem C49_tdigest_words : forall m c, field m "compression" = Some (VFloat c) -> tdigest_maker (VMap m) = Ok c.
Proof. intros m c H. unfold field in H. change (bytes_of "compression") with k_compression in H. unfold tdigest_maker. cbn [aI aroot achild ax]. rewrite H. reflexivity. Qed.
Print Assumptions C49_tdigest_words.
Theorem C49_graphite_words : forall m a, field m "address" = Some (VStr a) -> graphite_maker (VMap m) = Ok a.
Proof. intros m a H. unfold field in H. change (bytes_of "address") with k_address in H. unfold graphite_maker. cbn [aI aroot achild ax]. rewrite H. reflexivity. Qed.
Print Assumptions C49_graphite_words.

(** The names of the three parts that rothko itself registers, when no plugin
    registers any: these and no others can be made. *)
Definition builtin (k : kind) (n : list Z) : Prop :=
  match k with KDatabase => n = bytes_of "files" | KDist => n = bytes_of "tdigest" | KListener => n = bytes_of "graphite" end.
Theorem C58_words : forall k n c,
  (builtin k n -> fst (new k n c (rrun inits reg0)) =
     match k with
     | KDatabase => files_db_maker c
     | KDist => match tdigest_maker c with Ok x => Ok (TDigest x) | Err => Err | Panic => Panic | Diverge => Diverge end
     | KListener => match graphite_maker c with Ok x => Ok (Graphite x) | Err => Err | Panic => Panic | Diverge => Diverge end
     end) /\
  (~ builtin k n -> fst (new k n c (rrun inits reg0)) = Err).
Proof.
  intros k n c. unfold new. replace (held (rrun inits reg0)) with false by reflexivity. split.
  - intros B. destruct k; cbn [builtin] in B; subst n.
    + replace (mget beqb (bytes_of "graphite") (table KListener (rrun inits reg0))) with (Some (fun c => lift Graphite (graphite_maker c))) by reflexivity. reflexivity.
    + replace (mget beqb (bytes_of "files") (table KDatabase (rrun inits reg0))) with (Some (fun c => lift (fun x : component => x) (files_db_maker c))) by reflexivity.
      unfold lift. cbn [fst]. now destruct (files_db_maker c).
    + replace (mget beqb (bytes_of "tdigest") (table KDist (rrun inits reg0))) with (Some (fun c => lift TDigest (tdigest_maker c))) by reflexivity. reflexivity.
  - intros B. assert (E : mget beqb n (table k (rrun inits reg0)) = None).
    { destruct k; cbn [builtin] in B; [change (table KListener (rrun inits reg0)) with [(bytes_of "graphite", fun c => lift Graphite (graphite_maker c))]
        |change (table KDatabase (rrun inits reg0)) with [(bytes_of "files", fun c => lift (fun x : component => x) (files_db_maker c))]
        |change (table KDist (rrun inits reg0)) with [(bytes_of "tdigest", fun c => lift TDigest (tdigest_maker c))]];
      cbn [mget]; match goal with |- (if ?b then _ else _) = _ => destruct b eqn:E; [|reflexivity] end; exfalso; apply B; apply beqb_eq in E; congruence. }
    now rewrite E.
Qed.
Print Assumptions C58_words.

Example C49_words_example :
  files_maker (VMap [(bytes_of "directory", VStr (bytes_of "data")); (bytes_of "size", VInt64 256); (bytes_of "cap", VInt64 100); (bytes_of "files", VInt64 2);
    (bytes_of "tuning", VMap [(bytes_of "workers", VInt64 4); (bytes_of "handles", VInt64 10); (bytes_of "drop", VBool true); (bytes_of "buffer", VInt64 7)])])
  = Ok (bytes_of "data", {| fo_size := 256; fo_cap := 100; fo_files := 2; fo_buffer := 7; fo_drop := true; fo_handles := 10; fo_workers := 4 |}).
Proof. reflexivity. Qed.
