(** Model of internal/junk/launcher.go: Launch with any number of tasks.

    An error is [Some e], nil is [None].  A task is a black box that returns
    some error at some time; if it returns only after its context is cancelled
    is up to the task. *)
From Coq Require Import ZArith List Bool.
From Verif Require Import Base Cache.
Import ListNotations.
Open Scope nat_scope.

(** launcher.go:38-43 the goroutine of one task *)
Inductive task :=
| TRun                        (* in fn(ctx) *)
| TRet (e : option Z)         (* fn returned e; before errch <- *)
| TSent                       (* before wg.Done *)
| TGone.

(** launcher.go:46-52 the caller *)
Inductive lmain :=
| MLoop (todo : nat)          (* in the loop, [todo] receives left *)
| MRet (e : option Z)         (* returning e: deferred cancel and wg.Wait to run *)
| MWait (e : option Z)        (* cancel done, in wg.Wait *)
| MDone (e : option Z).       (* Launch returned e *)

Record lstate := LS {
  l_tasks : list task;
  l_errch : list (option Z);     (* buffered channel of capacity len(tasks) *)
  l_main : lmain;
  l_cancelled : bool;
  l_sent : list (option Z)       (* history: everything sent to errch, oldest first *)
}.

(** launcher.go:28-36 *)
Definition l_init (n : nat) : lstate := LS (repeat TRun n) [] (MLoop n) false [].

Definition ltask (s : lstate) n t := LS (set_nth n t (l_tasks s)) (l_errch s) (l_main s) (l_cancelled s) (l_sent s).

Inductive l_step : lstate -> lstate -> Prop :=
| ls_return s n e : nth_error (l_tasks s) n = Some TRun -> l_step s (ltask s n (TRet e))
| ls_send s n e : nth_error (l_tasks s) n = Some (TRet e) -> length (l_errch s) < length (l_tasks s) ->
    l_step s (LS (set_nth n TSent (l_tasks s)) (l_errch s ++ [e]) (l_main s) (l_cancelled s) (l_sent s ++ [e]))
| ls_done s n : nth_error (l_tasks s) n = Some TSent -> l_step s (ltask s n TGone)
| ls_recv_nil s k rest : l_main s = MLoop (S k) -> l_errch s = None :: rest ->
    l_step s (LS (l_tasks s) rest (MLoop k) true (l_sent s))
| ls_recv_err s k x rest : l_main s = MLoop (S k) -> l_errch s = Some x :: rest ->
    l_step s (LS (l_tasks s) rest (MRet (Some x)) (l_cancelled s) (l_sent s))
| ls_loop_end s : l_main s = MLoop 0 -> l_step s (LS (l_tasks s) (l_errch s) (MRet None) (l_cancelled s) (l_sent s))
| ls_cancel s e : l_main s = MRet e -> l_step s (LS (l_tasks s) (l_errch s) (MWait e) true (l_sent s))
| ls_wait s e : l_main s = MWait e -> Forall (eq TGone) (l_tasks s) ->
    l_step s (LS (l_tasks s) (l_errch s) (MDone e) (l_cancelled s) (l_sent s)).

Inductive l_reach (n : nat) : lstate -> Prop :=
| l_reach_init : l_reach n (l_init n)
| l_reach_step s s' : l_reach n s -> l_step s s' -> l_reach n s'.

(** the first non-nil error of a list of results *)
Fixpoint first_error (l : list (option Z)) : option Z :=
  match l with [] => None | Some e :: _ => Some e | None :: l => first_error l end.
