(** Model of database/files/lock_pool.go: any number of goroutines that call
    Lock(k) ... Unlock(k) in pairs, on keys of their choice, forever.

    Steps are the atomic actions: each critical section of l.mu (which contains
    no blocking operation) is one step, st.mu.Lock is a step enabled when the
    mutex is free, st.mu.Unlock is a step. *)
From Coq Require Import ZArith List Bool.
From Verif Require Import Base Maps Cache.
Import ListNotations.
Open Scope Z_scope.

Definition key := list Z.

(** lock_pool.go:10-18 the pool; lockPoolState values are numbered in order of
    allocation: [lp_ref i], [lp_mu i] are the fields of number i *)
Record lpool := LP {
  lp_locks : list (key * Z);
  lp_ref : Z -> Z;
  lp_mu : Z -> bool;
  lp_next : Z
}.

(** where a goroutine is *)
Inductive lthread :=
| LIdle                        (* outside *)
| LWait (k : key) (i : Z)      (* in Lock(k), at st.mu.Lock() of l.35 *)
| LIn (k : key) (i : Z)        (* Lock(k) has returned, Unlock(k) not yet called *)
| LOut (k : key) (i : Z)       (* in Unlock(k), at st.mu.Unlock() of l.50 *)
| LPanic.                      (* panicked in Unlock: "unlock with no state" *)

Definition upd {A} (f : Z -> A) (i : Z) (x : A) : Z -> A := fun j => if j =? i then x else f j.

(** lock_pool.go:22-24 newLockPool *)
Definition lp_new : lpool := LP [] (fun _ => 0) (fun _ => false) 0.

(** one step of one goroutine; [k] is the key it chooses if it is idle *)
Definition lp_step (k : key) (p : lpool) (t : lthread) : option (lpool * lthread) :=
  match t with
  | LIdle =>
      (* l.27-34 *)
      let '(p, i) :=
        match mget beqb k (lp_locks p) with
        | Some i => (p, i)
        | None => (LP (mput beqb k (lp_next p) (lp_locks p)) (upd (lp_ref p) (lp_next p) 0)
                      (upd (lp_mu p) (lp_next p) false) (lp_next p + 1), lp_next p)
        end in
      Some (LP (lp_locks p) (upd (lp_ref p) i (lp_ref p i + 1)) (lp_mu p) (lp_next p), LWait k i)
  | LWait k i =>
      (* l.36: blocks while the mutex is held *)
      if lp_mu p i then None
      else Some (LP (lp_locks p) (lp_ref p) (upd (lp_mu p) i true) (lp_next p), LIn k i)
  | LIn k _ =>
      (* l.40-48: the state is looked up again by key *)
      match mget beqb k (lp_locks p) with
      | None => Some (p, LPanic)
      | Some i =>
          let r := lp_ref p i - 1 in
          Some (LP (if r =? 0 then mdel beqb k (lp_locks p) else lp_locks p)
                   (upd (lp_ref p) i r) (lp_mu p) (lp_next p), LOut k i)
      end
  | LOut _ i =>
      (* l.50 (sync: unlock of unlocked mutex is a fatal error) *)
      if lp_mu p i then Some (LP (lp_locks p) (lp_ref p) (upd (lp_mu p) i false) (lp_next p), LIdle)
      else Some (p, LPanic)
  | LPanic => None
  end.

(** a system: the pool and the goroutines; a step of one goroutine *)
Definition lsys : Type := lpool * list lthread.
Inductive lp_trans : lsys -> lsys -> Prop :=
| lp_one : forall p ts n k t p' t',
    nth_error ts n = Some t -> lp_step k p t = Some (p', t') ->
    lp_trans (p, ts) (p', set_nth n t' ts).
Inductive lp_reach (n : nat) : lsys -> Prop :=
| lp_init : lp_reach n (lp_new, repeat LIdle n)
| lp_next_ : forall s s', lp_reach n s -> lp_trans s s' -> lp_reach n s'.
