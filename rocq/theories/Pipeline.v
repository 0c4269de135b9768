(** The parts of a process put together, run.go:188-210 (the listener, the dumper
    and the database of one process), one call after the other: connections of the
    listener (Graphite.v), dumps (Writer.v's Capture with Dump.v), and the calls on
    the database (Metric.v through DbSpec.v's [c_run]).

    Simplifications: connections are handled one after the other and not while a dump
    is captured (C36, C51, C53 are about overlapping calls); a restart happens between
    calls (C19-C21 are about crashes); the database refuses no write of a dump for a
    full queue ([length (m_calls d) = length recs]: all Queue calls returned nil;
    C28 is about refused ones). *)
From Coq Require Import ZArith List Bool Permutation.
From Verif Require Import Base PbRecord Agg Writer Dump Graphite GraphiteSpec Cache Metric MetricSpec DbSpec PipelineSpec.
Import ListNotations.
Open Scope Z_scope.

(** dump.go:124-130 and writer.go of database/files: a queued record is written *)
Definition written_as (q : list Z * Z * Z * list Z) : op :=
  let '(metric, start, end_, data) := q in OWrite metric (Val start end_ data).
Definition is_write (o : op) : bool := match o with OWrite _ _ => true | _ => false end.
Definition is_reopen (o : op) : bool := match o with OReopen _ _ _ _ _ => true | _ => false end.
(** what the database did during a dump: the queued writes, in some order, and any
    queries between them *)
Definition performed (queued : list (list Z * Z * Z * list Z)) (ops : list op) : Prop :=
  Permutation (filter is_write ops) (map written_as queued) /\ filter is_reopen ops = [].

(** [sys parse p size cap max events w ops]: after the events (newest first) the
    writer is in state [w] and the calls on the database were [ops], all processes
    having the options [size], [cap], [max] *)
Inductive sys (parse : list Z -> option Z) (p : params) (size cap max : Z) : list event -> writer -> list op -> Prop :=
| sys_start : sys parse p size cap max [] w_new []
(* listener.go: a connection sends lines *)
| sys_connection ev w ops clock lines ok w' : sys parse p size cap max ev w ops ->
    handle_conn parse p clock (sent lines) w = Ok (ok, w') ->
    sys parse p size cap max (Connection clock lines :: ev) w' ops
(* dump.go:64, 71: one Dump, not cancelled, until it returns *)
| sys_dump ev w ops now recs w' pool nbuf d writes skips errors more : sys parse p size cap max ev w ops ->
    w_step p w (ECapture now recs true) w' ->
    NoDup pool -> (forall b, In b pool -> (b < nbuf)%nat) ->
    d_reach recs pool nbuf d -> m_main d = DDone writes skips errors -> m_cancelled d = false ->
    length (m_calls d) = length recs -> performed (m_queued d) more ->
    sys parse p size cap max (Dumped now :: ev) w' (ops ++ more)
(* a query between dumps *)
| sys_query ev w ops o : sys parse p size cap max ev w ops -> is_write o = false -> is_reopen o = false ->
    sys parse p size cap max ev w (ops ++ [o])
(* the process ends; another one opens the same directory *)
| sys_restart ev w ops handles rand : sys parse p size cap max ev w ops -> process_ok size cap handles rand ->
    sys parse p size cap max (Restarted :: ev) w_new (ops ++ [OReopen size cap max handles rand]).
