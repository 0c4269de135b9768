(** Model of /repo/demo.go addDemoData (lines 122-214). *)
From Coq Require Import ZArith List Bool String.
From Verif Require Import Base Pb PbRecord Float Agg Dump Server.
Import ListNotations.
Open Scope Z_scope.
Open Scope list_scope.

(** demo.go:142-151: nanoseconds; time.Duration division truncates *)
Definition duration : Z := 24 * 3600 * 10 ^ 9.
Definition records : Z := 100.
Definition demo_start (now : Z) : Z := now - duration.
Definition demo_delta (now : Z) : Z := Z.quot (now - demo_start now) records.

(** demo.go:126-140, 154-156: the names; Go's map order is any *)
Definition demo_names : list (list Z) :=
  [bytes_of "normal.increasing"; bytes_of "normal.stable"; bytes_of "normal.decreasing";
   bytes_of "exp.increasing"; bytes_of "exp.stable"; bytes_of "exp.decreasing"].

(** demo.go:168-178: math.Inf(1), math.Inf(-1), then the comparisons *)
Definition plus_inf : Z := 9218868437227405312.
Definition minus_inf : Z := 18442240474082181120.
Definition run_min (vals : list Z) : Z := fold_left (fun m v => if flt v m then v else m) vals plus_inf.
Definition run_max (vals : list Z) : Z := fold_left (fun m v => if flt m v then v else m) vals minus_inf.
(** demo.go:180-189; [vals] are the values drawn *)
Definition demo_record (p : params) (t0 t1 : Z) (vals : list Z) : drecord :=
  DRec t0 t1 (len vals) (p_marshal p vals) (p_kind p) (run_min vals) (run_max vals) [] [] 1.

(** what DB.Queue does with the callback: it is called once, by another goroutine,
    with (written, err <> nil); or it is called inside Queue (db_write.go:27-35: the
    value was dropped or the context is done) or never, and then this goroutine
    waits for ever (the channel is not buffered, demo.go:148, 198, 203); or Queue
    returns an error *)
Inductive qres :=
| Later (written err : bool)
| Stuck
| Refused.

Inductive dend := DemoDone | DemoFailed | DemoHangs.

Section Demo.
Variable S : Type.
(** the database *)
Variable queue : S -> list Z * Z * Z * list Z -> qres * S.
(** the random values of record [i] of a metric (demo.go:167-170) *)
Variable draw : list Z -> nat -> list Z.
Variable p : params.

(** demo.go:160-209, the loop of one metric; [i] counts its rounds.  The result has
    the arguments of the Queue calls, in order.  None: out of fuel. *)
Fixpoint demo_loop (fuel : nat) (now delta : Z) (m : list Z) (t0 t1 : Z) (i : nat) (s : S)
  : option (dend * S * list (list Z * Z * Z * list Z)) :=
  match fuel with
  | O => None
  | Datatypes.S fuel =>
    if negb (t0 <? now) then Some (DemoDone, s, [])
    else if negb (p_new p) then Some (DemoFailed, s, [])
    else
      let call := (m, t0, t1, drec_marshal (demo_record p t0 t1 (draw m i))) in
      let '(q, s) := queue s call in
      match q with
      | Refused => Some (DemoFailed, s, [call])
      | Stuck => Some (DemoHangs, s, [call])
      | Later _ true => Some (DemoFailed, s, [call])
      | Later _ false =>
        match demo_loop fuel now delta m t1 (t1 + delta) (Datatypes.S i) s with
        | Some (r, s, calls) => Some (r, s, call :: calls)
        | None => None
        end
      end
  end.

(** demo.go:154-213, over the names in the order [order]; C71 shows that 101 rounds
    are enough *)
Fixpoint demo_all (now : Z) (order : list (list Z)) (s : S) : option (dend * S * list (list Z * Z * Z * list Z)) :=
  match order with
  | [] => Some (DemoDone, s, [])
  | m :: order =>
    match demo_loop 101 now (demo_delta now) m (demo_start now) (demo_start now + demo_delta now) 0 s with
    | Some (DemoDone, s, calls) =>
      match demo_all now order s with
      | Some (r, s, calls') => Some (r, s, calls ++ calls')
      | None => None
      end
    | other => other
    end
  end.
End Demo.
