(** Model of data/load/load.go: a stored record's distribution is made again by
    the Default registry, without configuration. *)
From Coq Require Import ZArith List Bool.
From Verif Require Import Base Maps Typeassert Registry Run PbRecord.
Import ListNotations.
Open Scope Z_scope.

(** a dist.Dist: a t-digest read from these bytes, or something of a plugin *)
Inductive loaded := LTDigest (bytes : list Z) | LForeign (id : Z).

(** Params.Unmarshal of what a distribution maker gave.  dist/tdigest/wrapper.go:30-37:
    the compression is not used; [valid] is tdigest.FromBytes without error.
    [foreign] is Unmarshal of a plugin's Params.  Databases and listeners are not
    dist.Params (Go's types), so the last case does not occur. *)
Definition params_unmarshal (valid : list Z -> bool) (foreign : Z -> list Z -> res loaded) (c : component) (data : list Z) : res loaded :=
  match c with
  | TDigest _ => if valid data then Ok (LTDigest data) else Err
  | Foreign i => foreign i data
  | _ => Err
  end.

(** load.go:16-22 Load, with the registry it leaves *)
Definition load_dist (valid : list Z -> bool) (foreign : Z -> list Z -> res loaded) (rec : drecord) (r : registry value component)
  : res loaded * registry value component :=
  let (x, r) := new KDist (d_kind rec) VNil r in
  (do c <- x; params_unmarshal valid foreign c (d_dist rec), r).

(** several calls, by whichever goroutines, in the order they take the mutex *)
Fixpoint load_all valid foreign (l : list drecord) (r : registry value component) : list (res loaded) * registry value component :=
  match l with
  | [] => ([], r)
  | rec :: l => let (x, r) := load_dist valid foreign rec r in let (xs, r) := load_all valid foreign l r in (x :: xs, r)
  end.
