(** Model of a whole `rothko run` process: the two launchers, the last dump and the
    database (Shutdown.v, /repo/run.go:142-216) with the services as they are: graphite
    listeners (Listener.v), the dumper (dump.go:50-67) and the api server (Serve.v), and
    the context that SIGINT cancels (Signal.v; run.go:190).

    The values of Shutdown.v are the lines that the listeners give to the writer,
    numbered in that order.  A dump of the running dumper is one step. *)
From Coq Require Import ZArith List Bool.
From Verif Require Import Base Cache Launcher Shutdown Graphite Listener Serve.
Import ListNotations.
Open Scope nat_scope.

(** the tasks queued at run.go:143-175; the dumper has returned or not *)
Inductive service :=
| SvListener (g : gstate)
| SvDumper (ret : bool)
| SvApi (v : vstate).
(** what a service has returned *)
Definition sv_result (s : service) : option (option Z) :=
  match s with
  | SvListener g => match g_main g with GRet e => Some e | _ => None end
  | SvDumper r => if r then Some None else None
  | SvApi v => match v_main v with SRet e => Some e | _ => None end
  end.
(** a service at the time it is launched *)
Definition sv_start (s : service) : bool :=
  match s with
  | SvListener (GS GListen ANone [] false false false None false []) => true
  | SvDumper false => true
  | SvApi (VS SListen VNone [] false false false false false false false false) => true
  | _ => false
  end.

(** a step of a service whose context is done ([ctx]) or not; the line it handles, with
    its connection *)
Inductive sv_step (old ctx : bool) : bool -> service -> service -> option (nat * list Z) -> Prop :=
| svs_listener b g g' o : g_step b g g' -> (g_done g' = true -> g_done g = true \/ ctx = true) ->
    g_log g' = g_log g ++ match o with Some x => [x] | None => [] end ->
    sv_step old ctx b (SvListener g) (SvListener g') o
(* dump.go:57-60 *)
| svs_dumper : ctx = true -> sv_step old ctx false (SvDumper false) (SvDumper true) None
| svs_api b v v' : v_step old b v v' -> (v_done v' = true -> v_done v = true \/ ctx = true) ->
    sv_step old ctx b (SvApi v) (SvApi v') None.

(** the context tells a service that it is done *)
Definition sv_tell (s : service) : option service :=
  match s with
  | SvListener (GS m a cs o false st x f l) => Some (SvListener (GS m a cs o true st x f l))
  | SvApi (VS m w cs o t h false x k f r) => Some (SvApi (VS m w cs o t h true x k f r))
  | _ => None
  end.
(** something the service asked the kernel for failed *)
Definition sv_failed (s : service) : bool :=
  match s with SvListener g => g_failed g | SvDumper _ => false | SvApi v => v_failed v end.

Record pstate := PS {
  p_r : rstate;
  p_sv : list service;
  p_sig : bool;                              (* SIGINT: the context of run.go:190 is done *)
  p_lines : list (nat * nat * list Z)        (* history: service, connection, line; line i is value i *)
}.
Definition p_init (svs : list service) : pstate := PS (r_init (length svs)) svs false [].
(** the context of the services: of the inner launcher, below the signal, below the
    outer launcher *)
Definition p_ctx (s : pstate) : bool :=
  l_cancelled (inner (p_r s)) || p_sig s || l_cancelled (outer (p_r s)).

Definition with_inner (r : rstate) (i : lstate) : rstate :=
  RS (outer r) i (ph r) (added r) (pending r) (stored r) (timeout r) (cut r).
Definition with_value (r : rstate) (v : Z) : rstate :=
  RS (outer r) (inner r) (ph r) (added r ++ [v]) (pending r ++ [v]) (stored r) (timeout r) (cut r).

(** [true]: a step of the outside world, [false]: of the program *)
Inductive p_step (old : bool) : bool -> pstate -> pstate -> Prop :=
| ps_sig s : p_step old true s (PS (p_r s) (p_sv s) true (p_lines s))
| ps_tell s k v v' : nth_error (p_sv s) k = Some v -> p_ctx s = true -> sv_tell v = Some v' ->
    p_step old false s (PS (p_r s) (set_nth k v' (p_sv s)) (p_sig s) (p_lines s))
(* a service makes a step *)
| ps_quiet b s k v v' : nth_error (p_sv s) k = Some v -> sv_step old (p_ctx s) b v v' None ->
    p_step old b s (PS (p_r s) (set_nth k v' (p_sv s)) (p_sig s) (p_lines s))
| ps_line b s k v v' n t : nth_error (p_sv s) k = Some v -> sv_step old (p_ctx s) b v v' (Some (n, t)) ->
    p_step old b s (PS (with_value (p_r s) (Z.of_nat (length (p_lines s)))) (set_nth k v' (p_sv s)) (p_sig s) (p_lines s ++ [(k, n, t)]))
(* the dumper dumps *)
| ps_periodic s k r' : nth_error (p_sv s) k = Some (SvDumper false) -> 
    r' = RS (outer (p_r s)) (inner (p_r s)) (ph (p_r s)) (added (p_r s)) [] (stored (p_r s) ++ pending (p_r s)) (timeout (p_r s)) (cut (p_r s)) ->
    p_step old true s (PS r' (p_sv s) (p_sig s) (p_lines s))
(* launcher.go:40: the function of a task returns *)
| ps_return s k v e : nth_error (l_tasks (inner (p_r s))) k = Some TRun ->
    nth_error (p_sv s) k = Some v -> sv_result v = Some e ->
    p_step old false s (PS (with_inner (p_r s) (ltask (inner (p_r s)) k (TRet e))) (p_sv s) (p_sig s) (p_lines s))
(* the other steps of the inner launcher *)
| ps_inner s i : l_step (inner (p_r s)) i ->
    (forall k, nth_error (l_tasks (inner (p_r s))) k = Some TRun -> nth_error (l_tasks i) k = Some TRun) ->
    p_step old false s (PS (with_inner (p_r s) i) (p_sv s) (p_sig s) (p_lines s))
(* run.go:192-204 and the outer launcher with the database: Shutdown.v *)
| ps_after s r : ph (p_r s) = PServices -> r_step (p_r s) r -> ph r <> PServices ->
    p_step old false s (PS r (p_sv s) (p_sig s) (p_lines s))
| ps_rest s r : r_step (p_r s) r -> inner r = inner (p_r s) -> added r = added (p_r s) ->
    (ph (p_r s) = PServices -> ph r = PServices /\ pending r = pending (p_r s)) ->
    p_step old true s (PS r (p_sv s) (p_sig s) (p_lines s)).

Inductive p_reach (old : bool) (svs : list service) : pstate -> Prop :=
| p_reach_init : p_reach old svs (p_init svs)
| p_reach_step b s s' : p_reach old svs s -> p_step old b s s' -> p_reach old svs s'.
Inductive p_runs (old : bool) : nat -> pstate -> pstate -> Prop :=
| pr_refl s : p_runs old 0 s s
| pr_step n s t u : p_step old false s t -> p_runs old n t u -> p_runs old (S n) s u.
