(** Model of the queue of the database: db_write.go Queue and worker, db.go Run,
    internal/junk/flag.go; any number of concurrent Queue calls (one goroutine
    per call), any number of Run calls, any number of workers per Run.

    Channels are numbered in order of creation.  The callback is modelled by the
    log entry it causes; a nil callback is not modelled.  Whether and when a
    context is cancelled is nondeterministic: a worker may see the cancellation
    at any time it is in its select, a Queue call may give up at any time it is
    in its select.  launcher.Run is modelled by its contract (C28): it returns
    after all its tasks have. *)
From Coq Require Import ZArith List Bool.
From Verif Require Import Base Cache.
Import ListNotations.
Open Scope nat_scope.

(** a channel of queuedValue; values are identified by their Queue call *)
Record chan := Chan { ch_buf : list nat; ch_closed : bool }.

(** a Queue call (db_write.go:14-62) *)
Inductive caller :=
| CStart                 (* before db.queue.Load, l.37 *)
| CSend (ch : nat)       (* in the select on that channel, l.46-59 *)
| CFail (ch : nat)       (* not handled: deferred callback to run, l.29-35 *)
| CDone (ch : nat).      (* returned *)

(** a worker (db_write.go:66-93) *)
Inductive worker :=
| WLoop                  (* in the select *)
| WHand (c : nat)        (* received c: writing, then calling done *)
| WZero                  (* received the zero value of a closed channel *)
| WExit.

(** a Run call (db.go:184-247) *)
Inductive runner :=
| RIdle                          (* before running.Start *)
| RErr                           (* returned the error of Start *)
| RLoad                          (* before db.queue.Load, l.192 *)
| RWork (ch : nat) (ws : list worker)   (* launcher.Run, l.226 *)
| RClose (ch : nat)              (* workers gone; before Store, l.232 *)
| RSwap (ch : nat)               (* before close(queue), l.236 *)
| RDrain (ch : nat) (h : option nat)  (* l.237-242, with the value in hand *)
| RStop (ch : nat)               (* before the deferred running.Stop *)
| RDone (ch : nat)               (* returned *)
| RPanic.                        (* close of closed channel *)

Record qsys := QS {
  q_cur : nat;                   (* the channel in db.queue *)
  q_chans : list chan;
  q_on : bool;                   (* db.running.on *)
  q_callers : list caller;
  q_runs : list runner;
  q_log : list nat               (* the callbacks that ran, newest first *)
}.

(** db.go:148-152 New: one open channel; [callers] Queue calls and [runs] Run
    calls will be made *)
Definition q_init (callers runs : nat) : qsys :=
  QS 0 [Chan [] false] false (repeat CStart callers) (repeat RIdle runs) [].

Definition set_caller (s : qsys) n x := QS (q_cur s) (q_chans s) (q_on s) (set_nth n x (q_callers s)) (q_runs s) (q_log s).
Definition set_run (s : qsys) n x := QS (q_cur s) (q_chans s) (q_on s) (q_callers s) (set_nth n x (q_runs s)) (q_log s).
Definition set_chan (s : qsys) n x := QS (q_cur s) (set_nth n x (q_chans s)) (q_on s) (q_callers s) (q_runs s) (q_log s).
Definition answer (s : qsys) c := QS (q_cur s) (q_chans s) (q_on s) (q_callers s) (q_runs s) (c :: q_log s).

(** [buffer]: opts.Tuning.Buffer, [workers]: opts.Tuning.Workers *)
Inductive q_step (buffer workers : nat) : qsys -> qsys -> Prop :=
(* Queue *)
| qs_load s n : nth_error (q_callers s) n = Some CStart ->
    q_step buffer workers s (set_caller s n (CSend (q_cur s)))
| qs_send s n ch buf : nth_error (q_callers s) n = Some (CSend ch) ->
    nth_error (q_chans s) ch = Some (Chan buf false) -> length buf < buffer ->
    q_step buffer workers s (set_caller (set_chan s ch (Chan (buf ++ [n]) false)) n (CDone ch))
| qs_rendezvous s n ch r ws m : nth_error (q_callers s) n = Some (CSend ch) ->
    nth_error (q_chans s) ch = Some (Chan [] false) ->
    nth_error (q_runs s) r = Some (RWork ch ws) -> nth_error ws m = Some WLoop ->
    q_step buffer workers s (set_caller (set_run s r (RWork ch (set_nth m (WHand n) ws))) n (CDone ch))
| qs_giveup s n ch : nth_error (q_callers s) n = Some (CSend ch) ->
    (* ctx.Done, the default case with Drop, or the recovered panic of a send
       on a closed channel *)
    q_step buffer workers s (set_caller s n (CFail ch))
| qs_fail s n ch : nth_error (q_callers s) n = Some (CFail ch) ->
    q_step buffer workers s (answer (set_caller s n (CDone ch)) n)
(* worker *)
| qs_recv s r ch ws m c buf closed : nth_error (q_runs s) r = Some (RWork ch ws) ->
    nth_error ws m = Some WLoop -> nth_error (q_chans s) ch = Some (Chan (c :: buf) closed) ->
    q_step buffer workers s (set_chan (set_run s r (RWork ch (set_nth m (WHand c) ws))) ch (Chan buf closed))
| qs_recv_zero s r ch ws m : nth_error (q_runs s) r = Some (RWork ch ws) ->
    nth_error ws m = Some WLoop -> nth_error (q_chans s) ch = Some (Chan [] true) ->
    q_step buffer workers s (set_run s r (RWork ch (set_nth m WZero ws)))
| qs_written s r ch ws m c : nth_error (q_runs s) r = Some (RWork ch ws) ->
    nth_error ws m = Some (WHand c) ->
    q_step buffer workers s (answer (set_run s r (RWork ch (set_nth m WLoop ws))) c)
| qs_cancel s r ch ws m : nth_error (q_runs s) r = Some (RWork ch ws) ->
    nth_error ws m = Some WLoop ->
    q_step buffer workers s (set_run s r (RWork ch (set_nth m WExit ws)))
(* Run *)
| qs_start s r : nth_error (q_runs s) r = Some RIdle -> q_on s = false ->
    q_step buffer workers s
      (set_run (QS (q_cur s) (q_chans s) true (q_callers s) (q_runs s) (q_log s)) r RLoad)
| qs_already s r : nth_error (q_runs s) r = Some RIdle -> q_on s = true ->
    q_step buffer workers s (set_run s r RErr)
| qs_launch s r : nth_error (q_runs s) r = Some RLoad ->
    q_step buffer workers s (set_run s r (RWork (q_cur s) (repeat WLoop workers)))
| qs_waited s r ch ws : nth_error (q_runs s) r = Some (RWork ch ws) -> Forall (eq WExit) ws ->
    q_step buffer workers s (set_run s r (RClose ch))
| qs_store s r ch : nth_error (q_runs s) r = Some (RClose ch) ->
    q_step buffer workers s
      (set_run (QS (length (q_chans s)) (q_chans s ++ [Chan [] false]) (q_on s) (q_callers s) (q_runs s) (q_log s))
               r (RSwap ch))
| qs_close s r ch buf : nth_error (q_runs s) r = Some (RSwap ch) ->
    nth_error (q_chans s) ch = Some (Chan buf false) ->
    q_step buffer workers s (set_chan (set_run s r (RDrain ch None)) ch (Chan buf true))
| qs_close_closed s r ch buf : nth_error (q_runs s) r = Some (RSwap ch) ->
    nth_error (q_chans s) ch = Some (Chan buf true) ->
    q_step buffer workers s (set_run s r RPanic)
| qs_drain s r ch c buf closed : nth_error (q_runs s) r = Some (RDrain ch None) ->
    nth_error (q_chans s) ch = Some (Chan (c :: buf) closed) ->
    q_step buffer workers s (set_chan (set_run s r (RDrain ch (Some c))) ch (Chan buf closed))
| qs_drained s r ch c : nth_error (q_runs s) r = Some (RDrain ch (Some c)) ->
    q_step buffer workers s (answer (set_run s r (RDrain ch None)) c)
| qs_end s r ch : nth_error (q_runs s) r = Some (RDrain ch None) ->
    nth_error (q_chans s) ch = Some (Chan [] true) ->
    q_step buffer workers s (set_run s r (RStop ch))
| qs_stop s r ch : nth_error (q_runs s) r = Some (RStop ch) ->
    q_step buffer workers s
      (set_run (QS (q_cur s) (q_chans s) false (q_callers s) (q_runs s) (q_log s)) r (RDone ch)).

Inductive q_reach (buffer workers callers runs : nat) : qsys -> Prop :=
| q_reach_init : q_reach buffer workers callers runs (q_init callers runs)
| q_reach_step s s' : q_reach buffer workers callers runs s -> q_step buffer workers s s' ->
    q_reach buffer workers callers runs s'.

(** a Run call between Start and Stop *)
Definition active (r : runner) : bool :=
  match r with RIdle | RErr | RDone _ => false | _ => true end.
