(** Specification machine for histories that also contain values too large for
    an empty file, when no open files are kept (handles = 0). *)
From Coq Require Import ZArith List Bool.
From Verif Require Import Base Maps Convert Cache CacheProofs Metric MetricSpec
  FileProofs MetricFile MetricPaths MetricProofs DbSpec.
Import ListNotations.
Open Scope Z_scope.

(** a rejected write left an empty newest file beside an older one *)
Definition a_pending (am : ametric) : bool :=
  match a_files am with
  | f :: _ :: _ => match a_vals f with [] => true | _ => false end
  | _ => false
  end.
(** the metric without that file *)
Definition a_strip (am : ametric) : ametric :=
  if a_pending am then AM (a_first am) (tl (a_files am)) else am.

Definition b_query (am : ametric) (e : Z) : list value :=
  if a_pending am && (e <=? 0) then [] else a_query (a_strip am) e.

Definition b_step (o : op) (a : adb) : adb * outcome :=
  match o with
  | OWrite name v =>
      let '(am, r) := a_write_any (ad_size a) (ad_cap a) (ad_max a)
                        (a_strip (am_of (ad_size a) (ad_cap a) (ad_map a) name)) v in
      (ADB (ad_size a) (ad_cap a) (ad_max a) (ad_root a)
           (a_dirs (ad_root a) (ad_dirs a) name) (aput name am (ad_map a)), RWrite r)
  | OQuery name e =>
      match ad_map a name with
      | Some am => (a, RQuery (b_query am e) (Ok tt))
      | None => a_step o a
      end
  | OLatest name =>
      match ad_map a name with
      | Some am => (a, RLatest (hd_error (b_query am (2 ^ 63 - 1))) (Ok tt))
      | None => a_step o a
      end
  | OReopen _ _ _ _ _ => a_step o a
  end.
Fixpoint b_run (ops : list op) (a : adb) : adb * list outcome :=
  match ops with
  | [] => (a, [])
  | o :: ops => let '(a, r) := b_step o a in
                let '(a, rs) := b_run ops a in (a, r :: rs)
  end.

(** histories without a handle cache; values of any size *)
Fixpoint ops_any (ops : list op) : Prop :=
  match ops with
  | [] => True
  | OWrite _ v :: ops => val_ok v /\ ops_any ops
  | OReopen size cap _ handles rand :: ops =>
      process_ok size cap handles rand /\ handles = 0 /\ ops_any ops
  | _ :: ops => ops_any ops
  end.
Definition history_any (root : list Z) (size cap : Z) (rand : stream) (ops : list op) : Prop :=
  root <> [] /\ process_ok size cap 0 rand /\ ops_any ops /\ Z.of_nat (length ops) < 2 ^ 61.
