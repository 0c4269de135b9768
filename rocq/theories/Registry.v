(** Model of /repo/registry/registry.go (and of the forwarding functions of
    registry/common.go, which call the same methods on the Default registry). *)
From Coq Require Import ZArith List Bool.
From Verif Require Import Base Maps.
Import ListNotations.
Open Scope Z_scope.

(** the three tables: listeners, databases, distributions *)
Inductive kind : Type := KListener | KDatabase | KDist.

(** What a maker does when it is called: it returns, or it calls the registry
    itself.  [C] is the configuration type, [T] what is made (Go gives the three
    kinds of makers different result types; here one type serves all). *)
Inductive act (C T : Type) : Type :=
| Ret (r : res T)
| CallRegister (k : kind) (name : list Z) (m : C -> act C T) (next : act C T)
| CallNew (k : kind) (name : list Z) (c : C) (next : res T -> act C T).
Arguments Ret {C T} _.
Arguments CallRegister {C T} _ _ _ _.
Arguments CallNew {C T} _ _ _ _.

Definition maker (C T : Type) := C -> act C T.

(** Registry (registry.go:16-22); [held]: a call that never returns holds mu *)
Record registry (C T : Type) := {
  listeners : list (list Z * maker C T);
  databases : list (list Z * maker C T);
  distributions : list (list Z * maker C T);
  held : bool }.
Arguments listeners {C T} _.
Arguments databases {C T} _.
Arguments distributions {C T} _.
Arguments held {C T} _.

(** the zero Registry: nil maps, lookups find nothing *)
Definition reg0 {C T} : registry C T :=
  {| listeners := []; databases := []; distributions := []; held := false |}.

Definition table {C T} (k : kind) (r : registry C T) :=
  match k with KListener => listeners r | KDatabase => databases r | KDist => distributions r end.

(** RegisterListener (26-33), RegisterDatabase (53-60), RegisterDistribution
    (80-87): lock, allocate the map if nil, store, unlock *)
Definition register {C T} (k : kind) (name : list Z) (m : maker C T) (r : registry C T) : res (registry C T) :=
  if held r then Diverge else
  match k with
  | KListener => Ok {| listeners := mput beqb name m (listeners r); databases := databases r; distributions := distributions r; held := false |}
  | KDatabase => Ok {| listeners := listeners r; databases := mput beqb name m (databases r); distributions := distributions r; held := false |}
  | KDist => Ok {| listeners := listeners r; databases := databases r; distributions := mput beqb name m (distributions r); held := false |}
  end.

(** NewListener (37-49), NewDatabase (64-76), NewDistribution (92-104): the maker
    runs with the mutex held (defer r.mu.Unlock), so a maker that calls the
    registry waits for itself for ever *)
Definition new {C T} (k : kind) (name : list Z) (c : C) (r : registry C T) : res T * registry C T :=
  if held r then (Diverge, r) else
  match mget beqb name (table k r) with
  | None => (Err, r)
  | Some m =>
    match m c with
    | Ret x => (x, match x with Diverge =>
                 {| listeners := listeners r; databases := databases r; distributions := distributions r; held := true |}
                 | _ => r end)
    | _ => (Diverge, {| listeners := listeners r; databases := databases r; distributions := distributions r; held := true |})
    end
  end.

(** a history of calls on one registry.  Calls of several goroutines are
    serialised by mu, so they are such a list in the order they take mu. *)
Inductive rop (C T : Type) : Type :=
| Reg (k : kind) (name : list Z) (m : maker C T)
| New (k : kind) (name : list Z) (c : C).
Arguments Reg {C T} _ _ _.
Arguments New {C T} _ _ _.

Definition rstep {C T} (o : rop C T) (r : registry C T) : option (res T) * registry C T :=
  match o with
  | Reg k n m => match register k n m r with Ok r' => (None, r') | _ => (Some Diverge, r) end
  | New k n c => let (x, r') := new k n c r in (Some x, r')
  end.

Fixpoint rrun {C T} (l : list (rop C T)) (r : registry C T) : registry C T :=
  match l with
  | [] => r
  | o :: rest => rrun rest (snd (rstep o r))
  end.
