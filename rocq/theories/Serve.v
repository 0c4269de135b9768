(** Model of how the api server runs and stops: /repo/run.go:219-272, runServer, on
    top of Serve and Shutdown of net/http as documented and implemented.

    [old]: the net/http of Go 1.10 and before, where Serve forgets an earlier Shutdown
    (trackListener makes a new doneChan when the server has no listeners and no
    connections); otherwise Serve returns ErrServerClosed at once after a Shutdown.

    Steps are marked [true] when the outside world does them (clients, the kernel, the
    clock, the cancellation, and the handlers of requests, which take as long as they
    take) and [false] when runServer or its goroutine does.

    Simplifications: ServeTLS is Serve (reading the certificate may fail); an accept
    with a temporary error is tried again inside net/http and left out; the deferred
    calls of runServer are one step; hijacked connections do not exist. *)
From Coq Require Import ZArith List Bool.
From Verif Require Import Base Cache.
Import ListNotations.
Open Scope nat_scope.

(** a connection: a request is being handled; waiting for a request; closed; with the
    number of requests answered *)
Inductive qstate := QActive | QIdle | QClosed.
Record sconn := SConn { q_state : qstate; q_answered : nat }.

(** runServer: before net.Listen (l.232); before Serve (l.261-265); in Accept; Serve
    returned [e] ([None]: ErrServerClosed); returned *)
Inductive smain := SListen | SServe | SAccept | SOut (e : option Z) | SRet (e : option Z).
(** the goroutine of l.242-258: not started; at <-ctx.Done(); before Shutdown; in it;
    before lis.Close; ended *)
Inductive watcher := VNone | VWait | VShut | VPoll | VLis | VEnd.
Record vstate := VS {
  v_main : smain;
  v_watch : watcher;
  v_conns : list sconn;
  v_open : bool;              (* the listening socket is open *)
  v_tracked : bool;           (* Serve has told the server about the listener *)
  v_shut : bool;              (* doneChan is closed / inShutdown is set *)
  v_done : bool;              (* the context of runServer is done *)
  v_own : bool;               (* cancel() of l.239 was called *)
  v_minute : bool;            (* the 60 seconds of l.246 are over *)
  v_failed : bool;            (* history: Listen, the certificate or Accept failed *)
  v_raced : bool              (* history: Shutdown came before Serve *)
}.
Definition v_init : vstate := VS SListen VNone [] false false false false false false false false.

Definition quiet (c : sconn) : bool := match q_state c with QClosed => true | _ => false end.

Inductive v_step (old : bool) : bool -> vstate -> vstate -> Prop :=
(* the context is cancelled; a minute has passed *)
| vs_ctx m w cs o t h d x k f r : v_step old true (VS m w cs o t h d x k f r) (VS m w cs o t h true x k f r)
| vs_minute m cs o t h d x k f r : v_step old true (VS m VPoll cs o t h d x k f r) (VS m VPoll cs o t h d x true f r)
(* l.232-242 *)
| vs_listen cs o t h d x k f r :
    v_step old false (VS SListen VNone cs o t h d x k f r) (VS SServe VWait cs true t h d x k f r)
| vs_listen_fail e cs o t h d x k f r :
    v_step old true (VS SListen VNone cs o t h d x k f r) (VS (SRet (Some e)) VNone cs false t h d x k true r)
(* l.261-265: Serve: the certificate cannot be read; trackListener *)
| vs_cert e w cs o t h d x k f r :
    v_step old true (VS SServe w cs o t h d x k f r) (VS (SOut (Some e)) w cs o t h d x k true r)
| vs_track w cs o t d x k f r :
    v_step old false (VS SServe w cs o t false d x k f r) (VS SAccept w cs o true false d x k f r)
| vs_track_late w cs o t d x k f r :
    v_step old false (VS SServe w cs o t true d x k f r)
      (if old then VS SAccept w cs o true false d x k f r else VS (SOut None) w cs o t true d x k f r)
(* a client connects; its first request is not there yet *)
| vs_accept w cs t h d x k f r :
    v_step old true (VS SAccept w cs true t h d x k f r) (VS SAccept w (cs ++ [SConn QIdle 0]) true t h d x k f r)
| vs_accept_fail e w cs t h d x k f r :
    v_step old true (VS SAccept w cs true t h d x k f r) (VS (SOut (if h then None else Some e)) w cs true t h d x k true r)
| vs_accept_closed e w cs t h d x k f r :
    v_step old false (VS SAccept w cs false t h d x k f r) (VS (SOut (if h then None else Some e)) w cs false t h d x k f r)
(* l.267-270 and the deferred cancel and lis.Close *)
| vs_return e w cs o t h d x k f r :
    v_step old false (VS (SOut e) w cs o t h d x k f r) (VS (SRet e) w cs false t h d true k f r)
(* l.243 *)
| vs_wake m cs o t h d x k f r : d || x = true ->
    v_step old false (VS m VWait cs o t h d x k f r) (VS m VShut cs o t h d x k f r)
(* l.250: Shutdown closes the listeners it knows *)
| vs_shutdown m cs o t h d x k f r :
    v_step old false (VS m VShut cs o t h d x k f r)
      (VS m VPoll cs (if t then false else o) t true d x k f (r || negb t))
(* Shutdown closes a connection that has no request *)
| vs_idle n a m cs o t h d x k f r : nth_error cs n = Some (SConn QIdle a) ->
    v_step old false (VS m VPoll cs o t h d x k f r) (VS m VPoll (set_nth n (SConn QClosed a) cs) o t h d x k f r)
(* Shutdown returns: nothing is left, or the minute is over *)
| vs_polled m cs o t h d x k f r : k || forallb quiet cs = true ->
    v_step old false (VS m VPoll cs o t h d x k f r) (VS m VLis cs o t h d x k f r)
(* l.257 *)
| vs_lis m cs o t h d x k f r :
    v_step old false (VS m VLis cs o t h d x k f r) (VS m VEnd cs false t h d x k f r)
(* a request arrives; it is answered (the connection is closed after a Shutdown); the
   client hangs up *)
| vs_request n a m w cs o t h d x k f r : nth_error cs n = Some (SConn QIdle a) ->
    v_step old true (VS m w cs o t h d x k f r) (VS m w (set_nth n (SConn QActive a) cs) o t h d x k f r)
| vs_answer n a m w cs o t h d x k f r : nth_error cs n = Some (SConn QActive a) ->
    v_step old true (VS m w cs o t h d x k f r)
      (VS m w (set_nth n (SConn (if h then QClosed else QIdle) (S a)) cs) o t h d x k f r)
| vs_hangup n a m w cs o t h d x k f r : nth_error cs n = Some (SConn QIdle a) ->
    v_step old true (VS m w cs o t h d x k f r) (VS m w (set_nth n (SConn QClosed a) cs) o t h d x k f r).

Inductive v_reach (old : bool) : vstate -> Prop :=
| v_reach_init : v_reach old v_init
| v_reach_step b s s' : v_reach old s -> v_step old b s s' -> v_reach old s'.
(** steps of runServer and its goroutine only *)
Inductive v_runs (old : bool) : nat -> vstate -> vstate -> Prop :=
| vr_refl s : v_runs old 0 s s
| vr_step n s t u : v_step old false s t -> v_runs old n t u -> v_runs old (S n) s u.
