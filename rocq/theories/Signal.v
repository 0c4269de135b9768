(** Model of /repo/internal/junk/signal.go:13-34, WithSignal(ctx, SIGINT), and of
    its use in run.go:190-191 (cancel is deferred).

    The operating system delivers a signal to the process: signal.Notify's channel
    gets it (the send does not block: dropped if the buffer of one is full) as long
    as it is registered; otherwise SIGINT ends the process. *)
From Coq Require Import ZArith List Bool.
From Verif Require Import Base.
Import ListNotations.

(** the goroutine of signal.go:21-31: at the select; received the signal, before
    cancel(); before signal.Stop; ended *)
Inductive gstate := GSelect | GGot | GStop | GEnd.
Record sstate := SS {
  s_go : gstate;
  s_done : bool;         (* the context is done *)
  s_chan : bool;         (* the channel holds a signal *)
  s_reg : bool;          (* the channel is registered *)
  s_killed : bool;       (* the process was ended by a signal *)
  s_sigs : nat;          (* signals delivered so far *)
  s_cancels : nat        (* the parent was done or cancel was called so far *)
}.
(** after signal.go:16-19 *)
Definition s_init : sstate := SS GSelect false false true false 0 0.

Inductive s_step : sstate -> sstate -> Prop :=
(* SIGINT is sent to the process *)
| st_sig_notify g d c k n x : s_step (SS g d c true k n x) (SS g d true true k (S n) x)
| st_sig_kill g d c k n x : s_step (SS g d c false k n x) (SS g d c false true (S n) x)
(* the parent context is done, or the caller calls cancel *)
| st_cancel g d c r k n x : s_step (SS g d c r k n x) (SS g true c r k n (S x))
(* select: ctx.Done() *)
| st_done c r k n x : s_step (SS GSelect true c r k n x) (SS GEnd true c r k n x)
(* select: <-ch *)
| st_recv d r k n x : s_step (SS GSelect d true r k n x) (SS GGot d false r k n x)
(* cancel() *)
| st_got d c r k n x : s_step (SS GGot d c r k n x) (SS GStop true c r k n x)
(* signal.Stop(ch) *)
| st_stop d c r k n x : s_step (SS GStop d c r k n x) (SS GEnd d c false k n x).

Inductive s_reach : sstate -> sstate -> Prop :=
| sr_refl s : s_reach s s
| sr_step s t u : s_reach s t -> s_step t u -> s_reach s u.
