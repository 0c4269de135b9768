(** Model of dump/dump.go: one Dump call with the callbacks of the database
    running in other goroutines, in any order.

    The database is a black box: DB.Queue either returns an error and never
    calls the callback, or returns nil and the callback is called exactly once
    at some time (for the files database that is what C26 and C28 are about).
    Callback [c] is the state of the c-th call; wg is the WaitGroup counter.
    The buffers of the sync.Pool are numbered: Get returns any buffer in the
    pool or a new one. *)
From Coq Require Import ZArith List Bool.
From Verif Require Import Base Cache Pb PbRecord.
Import ListNotations.
Open Scope Z_scope.

(** one completion: what the database passed to [complete], the buffer it owns *)
Inductive dcall :=
| DPending (buf : nat)                         (* DB.Queue returned nil, callback not called yet *)
| DCounted (buf : nat) (written err : bool)    (* dump.go:111-118 done, before bufs.Put and wg.Done *)
| DFinished (written err : bool).              (* dump.go:120-121 done *)

Inductive dmain :=
| DIter (todo : list (list Z * drecord))       (* in Capture's iteration *)
| DInline (buf : nat) (todo : list (list Z * drecord))   (* Queue returned an error: dump.go:131-133 *)
| DWait                                        (* dump.go:141 wg.Wait *)
| DDone (writes skips errors : Z).             (* returned, having reported these *)

Record dstate := DS {
  m_main : dmain;
  m_calls : list dcall;
  m_wg : Z;
  m_writes : Z; m_skips : Z; m_errors : Z;
  m_pool : list nat;                           (* idle buffers *)
  m_nbuf : nat;                                (* buffers allocated so far *)
  m_queued : list (list Z * Z * Z * list Z);   (* history: arguments of the DB.Queue calls: metric, start, end, data *)
  m_results : list (bool * bool);              (* history: results (written, err <> nil) given to complete *)
  m_cancelled : bool                           (* history: the iteration was stopped by the context *)
}.

(** dump.go:70-76: [recs] is what Capture iterates over (Writer.v) *)
Definition d_begin (recs : list (list Z * drecord)) (pool : list nat) (nbuf : nat) : dstate :=
  DS (DIter recs) [] 0 0 0 0 pool nbuf [] [] false.

Definition b2z (b : bool) : Z := if b then 1 else 0.
(** dump.go:124-130 the arguments of Queue *)
Definition d_args (mr : list Z * drecord) : list Z * Z * Z * list Z :=
  (fst mr, d_start (snd mr), d_end (snd mr), drec_marshal (snd mr)).

(** bufs.Get() (dump.go:89): a pooled buffer, or a new one *)
Inductive d_get : list nat -> nat -> nat -> list nat -> nat -> Prop :=
| dg_pool pool1 b pool2 n : d_get (pool1 ++ b :: pool2) n b (pool1 ++ pool2) n
| dg_new pool n : d_get pool n n pool (S n)
| dg_grow pool1 b pool2 n : d_get (pool1 ++ b :: pool2) n n (pool1 ++ pool2) (S n).  (* dump.go:90-91 too small: make, the old one is dropped *)

Inductive d_step : dstate -> dstate -> Prop :=
(* dump.go:81-86 the context is cancelled: the callback returns false *)
| ds_cancel s todo : m_main s = DIter todo -> todo <> [] ->
    d_step s (DS DWait (m_calls s) (m_wg s) (m_writes s) (m_skips s) (m_errors s) (m_pool s) (m_nbuf s) (m_queued s) (m_results s) true)
(* dump.go:88-130 marshal, wg.Add(1), Queue returns nil *)
| ds_queue s mr todo b pool n : m_main s = DIter (mr :: todo) -> d_get (m_pool s) (m_nbuf s) b pool n ->
    d_step s (DS (DIter todo) (m_calls s ++ [DPending b]) (m_wg s + 1) (m_writes s) (m_skips s) (m_errors s) pool n
                 (m_queued s ++ [d_args mr]) (m_results s) (m_cancelled s))
(* Queue returns an error *)
| ds_queue_err s mr todo b pool n : m_main s = DIter (mr :: todo) -> d_get (m_pool s) (m_nbuf s) b pool n ->
    d_step s (DS (DInline b todo) (m_calls s) (m_wg s + 1) (m_writes s) (m_skips s) (m_errors s) pool n
                 (m_queued s ++ [d_args mr]) (m_results s ++ [(false, true)]) (m_cancelled s))
(* dump.go:132 complete(false, err) by the same goroutine *)
| ds_inline s b todo : m_main s = DInline b todo ->
    d_step s (DS (DIter todo) (m_calls s) (m_wg s - 1) (m_writes s) (m_skips s + 1) (m_errors s + 1) (m_pool s ++ [b]) (m_nbuf s)
                 (m_queued s) (m_results s) (m_cancelled s))
(* the database calls complete(written, err): dump.go:111-118 *)
| ds_count s c b w e : nth_error (m_calls s) c = Some (DPending b) ->
    d_step s (DS (m_main s) (set_nth c (DCounted b w e) (m_calls s)) (m_wg s)
                 (m_writes s + b2z w) (m_skips s + b2z (negb w)) (m_errors s + b2z e)
                 (m_pool s) (m_nbuf s) (m_queued s) (m_results s ++ [(w, e)]) (m_cancelled s))
(* dump.go:120-121 bufs.Put, wg.Done *)
| ds_done s c b w e : nth_error (m_calls s) c = Some (DCounted b w e) ->
    d_step s (DS (m_main s) (set_nth c (DFinished w e) (m_calls s)) (m_wg s - 1) (m_writes s) (m_skips s) (m_errors s)
                 (m_pool s ++ [b]) (m_nbuf s) (m_queued s) (m_results s) (m_cancelled s))
(* the iteration is over *)
| ds_iterated s : m_main s = DIter [] ->
    d_step s (DS DWait (m_calls s) (m_wg s) (m_writes s) (m_skips s) (m_errors s) (m_pool s) (m_nbuf s) (m_queued s) (m_results s) (m_cancelled s))
(* dump.go:141-156 wg.Wait returns, the numbers are reported *)
| ds_wait s : m_main s = DWait -> m_wg s = 0 ->
    d_step s (DS (DDone (m_writes s) (m_skips s) (m_errors s)) (m_calls s) (m_wg s) (m_writes s) (m_skips s) (m_errors s) (m_pool s) (m_nbuf s) (m_queued s) (m_results s) (m_cancelled s)).

Inductive d_reach (recs : list (list Z * drecord)) (pool : list nat) (nbuf : nat) : dstate -> Prop :=
| d_reach_init : d_reach recs pool nbuf (d_begin recs pool nbuf)
| d_reach_step s s' : d_reach recs pool nbuf s -> d_step s s' -> d_reach recs pool nbuf s'.
