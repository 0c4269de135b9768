(** Model of data/agg.go: the aggregate of one metric.

    The distribution sketch is a black box behind the dist.Dist interface: its
    state is the list of the values it has observed, oldest first, and
    [p_marshal] (arbitrary) turns that state into bytes.  Times are UnixNano
    values. *)
From Coq Require Import ZArith List Bool.
From Verif Require Import Base Pb PbRecord Float.
Import ListNotations.
Open Scope Z_scope.

(** dist/common.go:31-40 dist.Params, as far as data uses it.  [p_new] tells
    whether New succeeds (dist/tdigest/wrapper.go:22-27: it fails iff the
    compression is zero). *)
Record params := Params {
  p_kind : list Z;
  p_new : bool;
  p_marshal : list Z -> list Z
}.

(** agg.go:13-18 type agg.  [a_mu]: the mutex is held. *)
Record agg := Agg {
  a_mu : bool;
  a_rec : drecord;
  a_dist : option (list Z)
}.

(** agg.go:21-29 newAgg *)
Definition agg_new (now : Z) : agg :=
  Agg false (DRec now 0 0 [] [] 0 0 [] [] 1) None.

Definition rec_obs (r : drecord) (n : Z) : drecord :=
  DRec (d_start r) (d_end r) n (d_dist r) (d_kind r) (d_min r) (d_max r) (d_minid r) (d_maxid r) (d_merged r).
Definition rec_min (r : drecord) (v : Z) (id : list Z) : drecord :=
  DRec (d_start r) (d_end r) (d_obs r) (d_dist r) (d_kind r) v (d_max r) id (d_maxid r) (d_merged r).
Definition rec_max (r : drecord) (v : Z) (id : list Z) : drecord :=
  DRec (d_start r) (d_end r) (d_obs r) (d_dist r) (d_kind r) (d_min r) v (d_minid r) id (d_merged r).

(** agg.go:35-52 the first critical section of Observe, with the lock free on
    entry.  Returns the values min, max, obs read, or [None] when params.New
    failed: then Observe returns with the mutex still held (line 43). *)
Definition obs_enter (p : params) (val : Z) (a : agg) : agg * option (Z * Z * Z) :=
  match (match a_dist a with
         | Some d => Some d
         | None => if p_new p then Some [] else None
         end) with
  | None => (Agg true (a_rec a) None, None)
  | Some d =>
      let r := a_rec a in
      (Agg false (rec_obs r (i64 (d_obs r + 1))) (Some (d ++ [val])), Some (d_min r, d_max r, d_obs r))
  end.

(** agg.go:56 whether the second critical section is entered *)
Definition obs_needs (val min max obs : Z) : bool := (obs =? 0) || flt val min || flt max val.

(** agg.go:66-75 the second critical section *)
Definition obs_update (val : Z) (id : list Z) (obs : Z) (a : agg) : agg :=
  let r := a_rec a in
  let r := if (obs =? 0) || flt val (d_min r) then rec_min r val id else r in
  let r := if (obs =? 0) || flt (d_max r) val then rec_max r val id else r in
  Agg (a_mu a) r (a_dist a).

(** agg.go:34-77 Observe with no other call running.  Locking a mutex that is
    already held blocks for ever. *)
Definition agg_observe (p : params) (val : Z) (id : list Z) (a : agg) : res agg :=
  if a_mu a then Diverge
  else match obs_enter p val a with
       | (a, None) => Ok a
       | (a, Some (min, max, obs)) =>
           Ok (if obs_needs val min max obs then obs_update val id obs a else a)
       end.

(** agg.go:81-93 Finish, with no other call running: calling a method of the
    nil dist panics.  The buffer reuse is not modelled: the bytes are those
    seen inside the callback. *)
Definition agg_finish (p : params) (now : Z) (a : agg) : res drecord :=
  if a_mu a then Diverge
  else match a_dist a with
       | None => Panic
       | Some d =>
           let r := a_rec a in
           Ok (DRec (d_start r) now (d_obs r) (p_marshal p d) (p_kind p)
                 (d_min r) (d_max r) (d_minid r) (d_maxid r) (d_merged r))
       end.

(* ------------------------------------------------------------------ *)
(** ** Concurrent Observe calls on one aggregate.
    Each critical section is atomic (it runs under the mutex) and needs the
    mutex free.  [o_log] and [o_ret] are histories: the observations whose first
    section ran, and those whose call returned. *)

Inductive othread :=
| OIdle
| OCalled (val : Z) (id : list Z)              (* before the first Lock *)
| OSecond (val : Z) (id : list Z) (obs : Z).   (* before the second Lock *)

Record ostate := OS {
  o_agg : agg;
  o_threads : list othread;
  o_log : list (Z * list Z);
  o_ret : list (Z * list Z)
}.

Fixpoint oset (n : nat) (t : othread) (l : list othread) : list othread :=
  match l, n with
  | [], _ => []
  | _ :: l, O => t :: l
  | x :: l, S n => x :: oset n t l
  end.

(** one step of thread [n]; [v] and [id] are the arguments when it starts a call *)
Definition o_next (p : params) (n : nat) (v : Z) (id : list Z) (s : ostate) : option ostate :=
  match nth_error (o_threads s) n with
  | None => None
  | Some OIdle =>
      Some (OS (o_agg s) (oset n (OCalled v id) (o_threads s)) (o_log s) (o_ret s))
  | Some (OCalled val i) =>
      if a_mu (o_agg s) then None
      else match obs_enter p val (o_agg s) with
           | (a, None) => Some (OS a (oset n OIdle (o_threads s)) (o_log s) (o_ret s))
           | (a, Some (min, max, obs)) =>
               if obs_needs val min max obs
               then Some (OS a (oset n (OSecond val i obs) (o_threads s)) (o_log s ++ [(val, i)]) (o_ret s))
               else Some (OS a (oset n OIdle (o_threads s)) (o_log s ++ [(val, i)]) (o_ret s ++ [(val, i)]))
           end
  | Some (OSecond val i obs) =>
      if a_mu (o_agg s) then None
      else Some (OS (obs_update val i obs (o_agg s)) (oset n OIdle (o_threads s)) (o_log s) (o_ret s ++ [(val, i)]))
  end.

(** every schedule of finite observations, from the state [s0] *)
Inductive o_reach (p : params) (s0 : ostate) : ostate -> Prop :=
| o_reach_init : o_reach p s0 s0
| o_reach_step s s' n v id : o_reach p s0 s -> finite v -> o_next p n v id s = Some s' -> o_reach p s0 s'.

Definition o_init (a : agg) (threads : nat) (log : list (Z * list Z)) : ostate :=
  OS a (repeat OIdle threads) log log.
Definition o_quiet (s : ostate) : Prop := Forall (eq OIdle) (o_threads s).
