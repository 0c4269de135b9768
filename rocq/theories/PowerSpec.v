(** Power failures.  The files are memory maps that are never synced
    (database/files/file.go:195-203: FullSync and FullAsync have no callers), so the
    operating system writes pages to disk when and in the order it likes.  After a power
    failure every part of a file is in one of the states it was in since the last time
    everything reached the disk. *)
From Coq Require Import ZArith List Bool.
From Verif Require Import Base Maps Record File Metric MetricPaths DbSpec DamageSpec.
Import ListNotations.
Open Scope Z_scope.

(** the contents of the data file number [i] of the metric [name] *)
Definition data_file (st : db) (name : list Z) (i : Z) : option (list Z) :=
  match mget beqb (path_of (w_root st) name i) (w_files st) with
  | Some ino => mget Z.eqb ino (w_ino st)
  | None => None
  end.

(** at some moment during the calls [ops], started in [st], the file has property [P] *)
Definition sometime (st : db) (ops : list op) (name : list Z) (i : Z) (P : list Z -> Prop) : Prop :=
  exists pre post c, ops = pre ++ post /\ data_file (fst (c_run pre st)) name i = Some c /\ P c.

(** [c'] is what a power failure during or after the calls [ops] may leave of a
    data file: the metadata, and each record on its own, is as it was at some
    moment since [st] (the moments may differ for each of them); or a record
    that was not there at [st] is torn, so that it does not parse *)
Definition power_file (st : db) (ops : list op) (name : list Z) (i : Z) (g : geom) (c0 c1 c' : list Z) : Prop :=
  len c' = len c1 /\ is_bytes c' /\
  sometime st ops name i (fun c => sub 0 (g_size g) c' = sub 0 (g_size g) c) /\
  forall n, 0 <= n < g_cap g ->
    sometime st ops name i (fun c => slot g c' n = slot g c n) \/
    (parse (slot g c' n) = Err /\ f_record g n c0 = Err).

(** everything was on disk in the state [st0]; then the calls [ops] were made; then the
    power failed and [st'] was found on disk.  No file of the metric was
    created since [st0]; about the contents of files of other metrics nothing is assumed. *)
Definition power_lost (st0 : db) (ops : list op) (name : list Z) (st' : db) : Prop :=
  let st1 := fst (c_run ops st0) in
  st' = set_ino st1 (w_ino st') /\
  (forall nm i, is_i64 i -> data_file st1 nm i <> None -> data_file st' nm i <> None) /\
  forall i c1 g, is_i64 i -> data_file st1 name i = Some c1 -> openFile c1 = Ok g ->
    exists c0 c', data_file st0 name i = Some c0 /\ data_file st' name i = Some c' /\
      power_file st0 ops name i g c0 c1 c'.

(** [l] is [l'] with some elements left out *)
Inductive subseq {X} : list X -> list X -> Prop :=
| ss_nil : subseq [] []
| ss_keep x l l' : subseq l l' -> subseq (x :: l) (x :: l')
| ss_skip x l l' : subseq l l' -> subseq l (x :: l').

(** reading calls on one metric *)
Definition reads (name : list Z) (o : op) : Prop := (exists e, o = OQuery name e) \/ o = OLatest name.
