(** Model of the metric name cache: db_write.go:122-144 (write), db_read.go:55-120
    (Metrics) and db_read.go:124-140 (PopulateMetrics), as a transition system of
    worker goroutines and goroutines that call Metrics/PopulateMetrics.

    Sets are heap objects (pointers are heap indices), because the code shares
    and replaces them.  Steps: each section of names_w_mu, each atomic load and
    store; names_mu is held across steps.  Not modelled: data races on a Go map
    (concurrent map access is a run time crash; see C30_published_set_mutated). *)
From Coq Require Import ZArith List Bool.
From Verif Require Import Base Maps Cache Sset.
Import ListNotations.

Definition mname := list Z.

(** the local variables of Metrics; [ml_start]: history, the names known to the
    clients when the call was made *)
Record mloc := MLoc { ml_names : nat; ml_copied : bool; ml_locked : bool; ml_i : nat; ml_start : list mname }.

Inductive maint :=
| MIdle
| MAt (l : mloc)                 (* at the head of the loop, l.68 *)
| MPtr (l : mloc) (p : nat)      (* names_w has been read: before l.69 *)
| MLock (l : mloc) (p : nat)     (* before names_mu.Lock of l.80 *)
| MMerge (l : mloc) (p : nat)    (* before names_w_mu[i].Lock of l.86 *)
| MGot (start result : list mname)   (* the callbacks ran, for [result] *)
| PScan (out : list mname).      (* PopulateMetrics: tree walked, before l.136 *)

(** a worker that has written a value of metric x *)
Inductive wpc := WIdle | WCheck (x : mname) | WStore (x : mname).

Record nsys := NS {
  n_heap : list sset;
  n_names : option nat;          (* db.names *)
  n_w : list nat;                (* db.names_w *)
  n_mu : bool;                   (* db.names_mu is held *)
  n_known : list mname;          (* history: names acknowledged or populated *)
  n_workers : list wpc;
  n_maint : list maint
}.

(** db.go:154-157 New *)
Definition n_init (workers maints : nat) : nsys :=
  NS (repeat s_new workers) None (seq 0 workers) false [] (repeat WIdle workers) (repeat MIdle maints).

Definition hget (s : nsys) (p : nat) : sset := nth p (n_heap s) s_new.
Definition n_with (s : nsys) heap names w mu :=
  NS heap names w mu (n_known s) (n_workers s) (n_maint s).
Definition n_setw (s : nsys) n x := NS (n_heap s) (n_names s) (n_w s) (n_mu s) (n_known s) (set_nth n x (n_workers s)) (n_maint s).
Definition n_setm (s : nsys) m x := NS (n_heap s) (n_names s) (n_w s) (n_mu s) (n_known s) (n_workers s) (set_nth m x (n_maint s)).
Definition n_know (s : nsys) l := NS (n_heap s) (n_names s) (n_w s) (n_mu s) (l ++ n_known s) (n_workers s) (n_maint s).

Inductive nact :=
| AWrite (num : nat) (x : mname)   (* worker num wrote a value of metric x *)
| ACheck (num : nat)               (* db_write.go:126-133 *)
| AAdd (num : nat)                 (* db_write.go:135-139, and the acknowledgement *)
| AMetrics (m : nat)               (* db_read.go:58-62 *)
| AStep (m : nat)                  (* the next step of Metrics *)
| APopulate (m : nat) (out : list mname)   (* db_read.go:125-131 walked the tree *)
| AStore (m : nat)                 (* db_read.go:134-138 *)
| ADone (m : nat).

Definition incl_b (a b : list mname) : bool := forallb (fun x => existsb (beqb x) b) a.

(** one step of a Metrics call *)
Definition metrics_step (s : nsys) (pc : maint) : option (nsys * maint) :=
  match pc with
  | MAt l =>
      match nth_error (n_w s) (ml_i l) with
      | Some p => Some (s, MPtr l p)                       (* l.68 *)
      | None =>                                            (* l.103-118 *)
          let names := if ml_copied l then Some (ml_names l) else n_names s in
          let mu := if ml_locked l then false else n_mu s in
          let s := n_with s (n_heap s) names (n_w s) mu in
          Some (s, MGot (ml_start l) (s_order (hget s (ml_names l))))
      end
  | MPtr l p =>                                            (* l.69-76 *)
      if (s_len (hget s p) =? 0)%Z
      then Some (s, MAt (MLoc (ml_names l) (ml_copied l) (ml_locked l) (S (ml_i l)) (ml_start l)))
      else if ml_locked l then Some (s, MMerge l p) else Some (s, MLock l p)
  | MLock l p =>                                           (* l.79-82 *)
      if n_mu s then None
      else Some (n_with s (n_heap s) (n_names s) (n_w s) true,
                 MMerge (MLoc (ml_names l) (ml_copied l) true (ml_i l) (ml_start l)) p)
  | MMerge l p =>                                          (* l.86-100 *)
      let '(heap, names) :=
        if ml_copied l then (n_heap s, ml_names l)
        else match n_names s with
             | Some q => if (0 <? s_len (hget s q))%Z
                         then (n_heap s ++ [s_copy (hget s q)], length (n_heap s))
                         else (n_heap s, ml_names l)
             | None => (n_heap s, ml_names l)
             end in
      let heap := set_nth names (s_merge (nth names heap s_new) (nth p heap s_new)) heap in
      let w := set_nth (ml_i l) (length heap) (n_w s) in
      Some (n_with s (heap ++ [s_new]) (n_names s) w (n_mu s),
            MAt (MLoc names true (ml_locked l) (S (ml_i l)) (ml_start l)))
  | _ => None
  end.

Definition n_do (a : nact) (s : nsys) : option nsys :=
  match a with
  | AWrite num x =>
      match nth_error (n_workers s) num with
      | Some WIdle => Some (n_setw s num (WCheck x))
      | _ => None
      end
  | ACheck num =>
      match nth_error (n_workers s) num with
      | Some (WCheck x) =>
          match n_names s with
          | Some q => if s_has x (hget s q) then Some (n_know (n_setw s num WIdle) [x])
                      else Some (n_setw s num (WStore x))
          | None => Some (n_setw s num (WStore x))
          end
      | _ => None
      end
  | AAdd num =>
      match nth_error (n_workers s) num, nth_error (n_w s) num with
      | Some (WStore x), Some p =>
          let heap := set_nth p (s_add x (hget s p)) (n_heap s) in
          Some (n_know (n_setw (n_with s heap (n_names s) (n_w s) (n_mu s)) num WIdle) [x])
      | _, _ => None
      end
  | AMetrics m =>
      match nth_error (n_maint s) m with
      | Some MIdle =>
          match n_names s with
          | Some q => Some (n_setm s m (MAt (MLoc q false false 0 (n_known s))))
          | None => Some (n_setm (n_with s (n_heap s ++ [s_new]) (n_names s) (n_w s) (n_mu s)) m
                            (MAt (MLoc (length (n_heap s)) false false 0 (n_known s))))
          end
      | _ => None
      end
  | AStep m =>
      match nth_error (n_maint s) m with
      | Some pc => match metrics_step s pc with
                   | Some (s, pc) => Some (n_setm s m pc)
                   | None => None
                   end
      | None => None
      end
  | APopulate m out =>
      (* the walk returns at least the metrics known when it starts: they have
         data files, and the walk finds every metric with a data file (C31) *)
      match nth_error (n_maint s) m with
      | Some MIdle => if incl_b (n_known s) out then Some (n_setm s m (PScan out)) else None
      | _ => None
      end
  | AStore m =>
      match nth_error (n_maint s) m with
      | Some (PScan out) =>
          if n_mu s then None
          else
            let set := fold_left (fun s x => s_add x s) out s_new in
            Some (n_know (n_setm (n_with s (n_heap s ++ [set]) (Some (length (n_heap s))) (n_w s) (n_mu s)) m MIdle) out)
      | _ => None
      end
  | ADone m =>
      match nth_error (n_maint s) m with
      | Some (MGot _ _) => Some (n_setm s m MIdle)
      | _ => None
      end
  end.

Inductive n_reach (workers maints : nat) : nsys -> Prop :=
| n_reach_init : n_reach workers maints (n_init workers maints)
| n_reach_step s a s' : n_reach workers maints s -> n_do a s = Some s' -> n_reach workers maints s'.

Fixpoint n_exec (acts : list nact) (s : nsys) : option nsys :=
  match acts with
  | [] => Some s
  | a :: acts => match n_do a s with Some s => n_exec acts s | None => None end
  end.
