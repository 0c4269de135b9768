(** Model of how a process runs and stops: /repo/run.go:142-216, two nested
    launchers (internal/junk/launcher.go, model Launcher.v).

    The outer launcher has two tasks: 0 = the services task (run.go:188-204),
    1 = the database (207-213).  The services task runs the inner launcher with
    [n] services (the listeners, the dumper, the api server), and if that returns
    nil performs the last dump.  Services and database are black boxes that may
    return any error (or nil) at any time; values are what listeners add to the
    writer, identified by numbers. *)
From Coq Require Import ZArith List Bool.
From Verif Require Import Base Cache Launcher.
Import ListNotations.
Open Scope nat_scope.

(** where the services task is *)
Inductive phase :=
| PServices                    (* in launcher.Run (run.go:192) *)
| PDump                        (* in dumper.Dump (run.go:202) *)
| PRet (e : option Z).         (* returned e *)

Record rstate := RS {
  outer : lstate;              (* parent.Run (run.go:216) *)
  inner : lstate;              (* launcher.Run *)
  ph : phase;
  added : list Z;              (* values the services have added to the writer *)
  pending : list Z;            (* of those, not captured by a dump yet *)
  stored : list Z;             (* of those, dumped and answered by the database *)
  timeout : bool;              (* the 60 seconds of the last dump are over (run.go:198) *)
  cut : bool                   (* the last dump was stopped before its end *)
}.

Definition r_init (n : nat) : rstate := RS (l_init 2) (l_init n) PServices [] [] [] false false.

(** the context of the database and of the last dump (child of run's ctx, which
    the run command never cancels: context.Background(), run.go:56) *)
Definition db_cancelled (s : rstate) : bool := l_cancelled (outer s).

Inductive r_step : rstate -> rstate -> Prop :=
(* a step of the inner launcher or a service returning *)
| rs_inner s i : ph s = PServices -> l_step (inner s) i ->
    r_step s (RS (outer s) i PServices (added s) (pending s) (stored s) (timeout s) (cut s))
(* a running service adds a value (Writer.Add) *)
| rs_add s k v : ph s = PServices -> nth_error (l_tasks (inner s)) k = Some TRun ->
    r_step s (RS (outer s) (inner s) (ph s) (added s ++ [v]) (pending s ++ [v]) (stored s) (timeout s) (cut s))
(* the periodic dump of a running dumper (dump.go:60-67): waits for its writes; taken as one step *)
| rs_periodic s k : ph s = PServices -> nth_error (l_tasks (inner s)) k = Some TRun ->
    r_step s (RS (outer s) (inner s) (ph s) (added s) [] (stored s ++ pending s) (timeout s) (cut s))
(* run.go:192-194 *)
| rs_fail s e : ph s = PServices -> l_main (inner s) = MDone (Some e) ->
    r_step s (RS (outer s) (inner s) (PRet (Some e)) (added s) (pending s) (stored s) (timeout s) (cut s))
| rs_dump s : ph s = PServices -> l_main (inner s) = MDone None ->
    r_step s (RS (outer s) (inner s) PDump (added s) (pending s) (stored s) (timeout s) (cut s))
(* the last dump ends: complete, or cut short because its context is done *)
| rs_dumped s : ph s = PDump ->
    r_step s (RS (outer s) (inner s) (PRet None) (added s) [] (stored s ++ pending s) (timeout s) (cut s))
| rs_timeout s : ph s = PDump -> 
    r_step s (RS (outer s) (inner s) (ph s) (added s) (pending s) (stored s) true (cut s))
| rs_cut s a b : ph s = PDump -> timeout s || db_cancelled s = true -> pending s = a ++ b ->
    r_step s (RS (outer s) (inner s) (PRet None) (added s) b (stored s ++ a) (timeout s) true)
(* the outer launcher; the services task returns what it returned *)
| rs_outer s o : (nth_error (l_tasks (outer s)) 0 = Some TRun -> nth_error (l_tasks o) 0 = Some TRun) ->
    l_step (outer s) o ->
    r_step s (RS o (inner s) (ph s) (added s) (pending s) (stored s) (timeout s) (cut s))
| rs_return s e : ph s = PRet e -> nth_error (l_tasks (outer s)) 0 = Some TRun ->
    r_step s (RS (ltask (outer s) 0 (TRet e)) (inner s) (ph s) (added s) (pending s) (stored s) (timeout s) (cut s)).

Inductive r_reach (n : nat) : rstate -> Prop :=
| r_reach_init : r_reach n (r_init n)
| r_reach_step s s' : r_reach n s -> r_step s s' -> r_reach n s'.

(** run returned e *)
Definition run_returned (s : rstate) (e : option Z) : Prop := l_main (outer s) = MDone e.
(** the database has returned (or is past that) *)
Definition db_returned (s : rstate) : Prop := nth_error (l_tasks (outer s)) 1 <> Some TRun.
