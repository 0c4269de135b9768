(** What an aggregate must report about the observations [log] (value, id). *)
From Coq Require Import ZArith List Bool.
From Verif Require Import Base PbRecord Float.
Import ListNotations.
Open Scope Z_scope.

(** [v] with id [i] is a smallest (largest) observation: it was observed under
    that id and no observation is smaller (larger) *)
Definition least (v : Z) (i : list Z) (log : list (Z * list Z)) : Prop :=
  In (v, i) log /\ forall w j, In (w, j) log -> flt w v = false.
Definition greatest (v : Z) (i : list Z) (log : list (Z * list Z)) : Prop :=
  In (v, i) log /\ forall w j, In (w, j) log -> flt v w = false.

Definition reports (r : drecord) (log : list (Z * list Z)) : Prop :=
  d_obs r = Z.of_nat (length log)
  /\ least (d_min r) (d_minid r) log
  /\ greatest (d_max r) (d_maxid r) log.
