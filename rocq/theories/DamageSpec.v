(** Damage to data files while nobody writes them: bit rot, zeroed or
    overwritten sectors. *)
From Coq Require Import ZArith List Bool.
From Verif Require Import Base Maps Record File Metric MetricFile MetricPaths MetricProofs DbSpec.
Import ListNotations.
Open Scope Z_scope.

(** the bytes of the n-th record of a file *)
Definition slot (g : geom) (c : list Z) (n : Z) : list Z := sub (offset g n) (g_size g) c.

(** [c'] is [c] with some of its records damaged, any number and in any way such
    that each of them either reads as before (padding changed) or does not parse
    (as the checksum, the version or the length of the record tells); the
    metadata at the start of the file is not damaged *)
Definition damaged (g : geom) (c c' : list Z) : Prop :=
  len c' = len c /\ is_bytes c' /\ sub 0 (g_size g) c' = sub 0 (g_size g) c /\
  forall n, 0 <= n < g_cap g -> parse (slot g c' n) = parse (slot g c n) \/ parse (slot g c' n) = Err.

(** the records of the value [v] can be read, one after the other from the p-th on *)
Definition stored (g : geom) (c : list Z) (v : value) (p : Z) : Prop :=
  val_ok v /\ forall j r, nth_error (recs (g_size g) v) j = Some r -> f_record g (p + Z.of_nat j) c = Ok r.

(** the free slots before the newest record, and the newest record itself, are unchanged *)
Definition top_intact (g : geom) (c c' : list Z) : Prop :=
  forall n, 0 <= n < g_cap g -> (forall k, 0 <= k < n -> f_has_record g k c = false) -> slot g c' n = slot g c n.

(** the data file number [i] of the metric [name] is the inode [ino] *)
Definition linked (st : db) (name : list Z) (i ino : Z) : Prop :=
  is_i64 i /\ mget beqb (path_of (w_root st) name i) (w_files st) = Some ino.

(** [st'] is [st] after damage to any data files: nothing but contents of files
    is different, and in the newest file of each metric the first record and
    the free space before it are unchanged *)
Definition damaged_db (st st' : db) : Prop :=
  st' = set_ino st (w_ino st') /\
  forall name i ino g, linked st name i ino -> openFile (contents st ino) = Ok g ->
    damaged g (contents st ino) (contents st' ino) /\
    ((forall j ino', i < j -> ~ linked st name j ino') -> top_intact g (contents st ino) (contents st' ino)).

(** a value that could be read before the damage and cannot be read afterwards *)
Definition lost (st st' : db) (name : list Z) (v : value) : Prop :=
  exists i ino g p, linked st name i ino /\ openFile (contents st ino) = Ok g /\
    stored g (contents st ino) v p /\ ~ stored g (contents st' ino) v p.

(** [l'] is [l] without the elements for which [P] holds *)
Inductive without {X} (P : X -> Prop) : list X -> list X -> Prop :=
| wo_nil : without P [] []
| wo_keep v l l' : ~ P v -> without P l l' -> without P (v :: l) (v :: l')
| wo_drop v l l' : P v -> without P l l' -> without P (v :: l) l'.

(** the answer [out'] of the damaged database to a call, given the answer [out]
    of the undamaged one: queries miss exactly the lost values, everything else
    is the same; QueryLatest answers the same value if that is not lost *)
Definition answers (P : list Z -> value -> Prop) (o : op) (out out' : outcome) : Prop :=
  match o, out, out' with
  | OQuery name _, RQuery l r, RQuery l' r' => r' = r /\ without (P name) l l'
  | OLatest name, RLatest x r, RLatest x' r' =>
      r' = r /\ (x = None -> x' = None) /\
      (forall v, x = Some v -> ~ P name v -> x' = Some v) /\
      (forall v, x' = Some v -> ~ P name v)
  | _, _, _ => out' = out
  end.
Inductive all_answer (P : list Z -> value -> Prop) : list op -> list outcome -> list outcome -> Prop :=
| aa_nil : all_answer P [] [] []
| aa_cons o out out' ops outs outs' : answers P o out out' -> all_answer P ops outs outs' ->
    all_answer P (o :: ops) (out :: outs) (out' :: outs').
