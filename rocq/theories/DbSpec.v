(** Histories of database calls, what the program answers to them (through the
    model of Metric.v), and the specification machine. *)
From Coq Require Import ZArith List Bool.
From Verif Require Import Base Maps Convert Cache CacheProofs Metric MetricSpec
  FileProofs MetricFile MetricPaths MetricProofs.
Import ListNotations.
Open Scope Z_scope.

(** the calls of a client, one after the other; [OReopen] ends the process and
    starts a new one on the same directory with the given options *)
Inductive op :=
| OWrite (name : list Z) (v : value)
| OQuery (name : list Z) (end_ : Z)
| OLatest (name : list Z)
| OReopen (size cap max handles : Z) (rand : stream).

Inductive outcome :=
| RWrite (r : res bool)
| RQuery (l : list value) (r : res unit)
| RLatest (o : option value) (r : res unit)
| RReopen.

(** one call on the model *)
Definition c_step (o : op) (st : db) : db * outcome :=
  match o with
  | OWrite name v =>
      let '(st, r) := db_write name (v_start v) (v_end v) (v_data v) st in (st, RWrite r)
  | OQuery name e =>
      let '(st, (l, r)) := db_query collect_cb name e [] st in (st, RQuery l r)
  | OLatest name =>
      let '(st, (x, r)) := db_query_latest name st in (st, RLatest x r)
  | OReopen size cap max handles rand => (db_reopen size cap max handles rand st, RReopen)
  end.

Fixpoint c_run (ops : list op) (st : db) : db * list outcome :=
  match ops with
  | [] => (st, [])
  | o :: ops => let '(st, r) := c_step o st in
                let '(st, rs) := c_run ops st in (st, r :: rs)
  end.

(** the acknowledged values of one metric, newest first, as its clients saw
    them: [ops] and the answers [outs] *)
Fixpoint acked_ (name : list Z) (ops : list op) (outs : list outcome) (log : list value) : list value :=
  match ops, outs with
  | OWrite name' v :: ops, RWrite (Ok true) :: outs =>
      acked_ name ops outs (if beqb name' name then v :: log else log)
  | _ :: ops, _ :: outs => acked_ name ops outs log
  | _, _ => log
  end.
Definition acked (name : list Z) (ops : list op) (outs : list outcome) : list value :=
  acked_ name ops outs [].

(** histories with supported options whose values fit into an empty file
    (too large values are the subject of C13/C15/C17, see Props_Storage.v) *)
Definition value_fits (size cap : Z) (v : value) : Prop :=
  val_ok v /\ nrec size v <= cap.
Definition process_ok (size cap handles : Z) (rand : stream) : Prop :=
  opts_ok size cap /\ 0 <= handles < 2 ^ 32 /\ rand_ok rand.
Fixpoint ops_ok (size cap : Z) (ops : list op) : Prop :=
  match ops with
  | [] => True
  | OWrite _ v :: ops => value_fits size cap v /\ ops_ok size cap ops
  | OReopen size' cap' _ handles rand :: ops =>
      process_ok size' cap' handles rand /\ ops_ok size' cap' ops
  | _ :: ops => ops_ok size cap ops
  end.

(** the specification machine: no bytes, handles, caches or paths *)
Record adb := ADB { ad_size : Z; ad_cap : Z; ad_max : Z; ad_root : list Z;
                    ad_dirs : list (list Z); ad_map : amap }.

Definition a_step (o : op) (a : adb) : adb * outcome :=
  match o with
  | OWrite name v =>
      let '(am, r) := a_write (ad_size a) (ad_cap a) (ad_max a)
                              (am_of (ad_size a) (ad_cap a) (ad_map a) name) v in
      (ADB (ad_size a) (ad_cap a) (ad_max a) (ad_root a)
           (a_dirs (ad_root a) (ad_dirs a) name) (aput name am (ad_map a)), RWrite r)
  | OQuery name e =>
      match ad_map a name with
      | Some am => (a, RQuery (a_query am e) (Ok tt))
      | None =>
          if existsb (beqb (clean_dir (dir_of (ad_root a) name))) (ad_dirs a)
          then (ADB (ad_size a) (ad_cap a) (ad_max a) (ad_root a) (ad_dirs a)
                    (aput name (a_fresh (ad_size a) (ad_cap a)) (ad_map a)), RQuery [] (Ok tt))
          else (a, RQuery [] Err)
      end
  | OLatest name =>
      match ad_map a name with
      | Some am => (a, RLatest (hd_error (a_query am (2 ^ 63 - 1))) (Ok tt))
      | None =>
          if existsb (beqb (clean_dir (dir_of (ad_root a) name))) (ad_dirs a)
          then (ADB (ad_size a) (ad_cap a) (ad_max a) (ad_root a) (ad_dirs a)
                    (aput name (a_fresh (ad_size a) (ad_cap a)) (ad_map a)), RLatest None (Ok tt))
          else (a, RLatest None Err)
      end
  | OReopen size cap max _ _ =>
      (ADB size cap max (ad_root a) (ad_dirs a) (ad_map a), RReopen)
  end.

Fixpoint a_run (ops : list op) (a : adb) : adb * list outcome :=
  match ops with
  | [] => (a, [])
  | o :: ops => let '(a, r) := a_step o a in
                let '(a, rs) := a_run ops a in (a, r :: rs)
  end.

Definition adb_empty (root : list Z) (size cap max : Z) : adb :=
  ADB size cap max root (ancestors [] (clean_dir root)) (fun _ => None).
