(** Specification for C78: what a user sees of a graphite listener (states and steps:
    Listener.v). *)
From Coq Require Import ZArith List Bool.
From Verif Require Import Base Graphite GraphiteSpec Listener.
Import ListNotations.
Open Scope Z_scope.

(** Run has returned [e] (None: nil) *)
Definition returned (s : gstate) (e : option Z) : Prop := g_main s = GRet e.
(** the lines of connection [n] that were given to the writer, in order *)
Definition handled (n : nat) (s : gstate) : list (list Z) :=
  map snd (filter (fun e => Nat.eqb (fst e) n) (g_log s)).
(** the connections, in the order they were accepted, by the bytes read from them *)
Definition received (s : gstate) : list (list Z) := map c_in (g_conns s).
(** some sequence of steps, of the goroutines and of the outside world *)
Inductive later : gstate -> gstate -> Prop :=
| lt_refl s : later s s
| lt_step b s t u : later s t -> g_step b t u -> later s u.
(** a line without the carriage return at its end *)
Definition no_cr (l : list Z) : list Z := if last l 0 =? 13 then removelast l else l.
