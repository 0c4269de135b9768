(** What linearizable means for the calls of Conc.v, independently of programs,
    locks, handles and caches.

    An observed log is explained by a history: the same log with, for every
    call that took effect, one extra event placed between its invocation and
    its return.  The calls in the order of their extra events, made one after
    the other by one client, must give the answers that were observed. *)
From Coq Require Import ZArith List Bool.
From Verif Require Import Base Metric MetricFile DbSpec Conc.
Import ListNotations.

(** [HInv t o]: goroutine [t] invokes [o]; [HLin t o r]: the call takes effect,
    its answer will be [r]; [HRes t r]: the call returns [r] *)
Inductive hevent := HInv (t : nat) (o : op) | HLin (t : nat) (o : op) (r : outcome) | HRes (t : nat) (r : outcome).
Definition thread_of (e : hevent) : nat := match e with HInv t _ | HLin t _ _ | HRes t _ => t end.
(** what can be observed of a history *)
Definition observe1 (e : hevent) : list event :=
  match e with HInv t o => [EInv t o] | HRes t r => [ERes t r] | HLin _ _ _ => [] end.
Definition observe (H : list hevent) : list event := flat_map observe1 H.
(** the calls and their answers in the order in which they took effect *)
Definition lin_ops (H : list hevent) : list op := flat_map (fun e => match e with HLin _ o _ => [o] | _ => [] end) H.
Definition lin_outs (H : list hevent) : list outcome := flat_map (fun e => match e with HLin _ _ r => [r] | _ => [] end) H.

(** where one goroutine is after a history: outside of any call; in a call that
    has not taken effect; in a call that has *)
Inductive tstate := TIdle | TPend (o : op) | TDone (o : op) (r : outcome).
(** the events of goroutine [t] are, over and over, the invocation of a call,
    that call taking effect with an answer, its return with the same answer *)
Inductive follows (t : nat) : list hevent -> tstate -> Prop :=
| fo_nil : follows t [] TIdle
| fo_inv H o : follows t H TIdle -> follows t (H ++ [HInv t o]) (TPend o)
| fo_lin H o r : follows t H (TPend o) -> follows t (H ++ [HLin t o r]) (TDone o r)
| fo_res H o r : follows t H (TDone o r) -> follows t (H ++ [HRes t r]) TIdle
| fo_other H e x : follows t H x -> thread_of e <> t -> follows t (H ++ [e]) x.

(** [H] explains the log: the answers are those of a single client of the
    database [d] that makes the calls one after the other *)
Definition explains (d : db) (log : list event) (H : list hevent) : Prop :=
  observe H = log /\ (forall t, exists x, follows t H x) /\ snd (c_run (lin_ops H) d) = lin_outs H.
Definition linearizable (d : db) (log : list event) : Prop := exists H, explains d log H.

(** the calls with values that fit an empty file; with values of any size *)
Definition call_fits (size cap : Z) (o : op) : Prop := match o with OWrite _ v => value_fits size cap v | _ => True end.
Definition call_any (o : op) : Prop := match o with OWrite _ v => val_ok v | _ => True end.
(** the goroutine of an event; no event of [l] is one of [t] *)
Definition who (e : event) : nat := match e with EInv t _ | ERes t _ => t end.
Definition silent (t : nat) (l : list event) : Prop := forall e, In e l -> who e <> t.
(** in [log] a call [o] of [t] was invoked after [before], and then returned [r] *)
Definition called (t : nat) (o : op) (r : outcome) (log before after : list event) : Prop :=
  exists during, log = before ++ EInv t o :: during ++ ERes t r :: after /\ silent t during.
