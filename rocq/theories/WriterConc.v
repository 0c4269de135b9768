(** Model of data/writer.go under concurrency: any number of goroutines calling
    Add and Capture on one Writer.

    Every Add call gets a fresh serial number standing for its value, so that
    its fate can be followed.  A page is a number; the aggregate of metric m on
    page p is the key (p, m): LoadOrStore guarantees there is one.  What an
    aggregate has observed is the part of the log [c_obs] with its key; its
    dist is nil while that is empty (agg.go:38-47).  Simplifications: Observe is
    one step (Agg.v has its two critical sections), Finish is one step (the code
    copies the record under the lock and marshals outside it), values are
    finite, params.New succeeds.  sync.Map.Range visits every key at most once,
    in any order, and may or may not see keys stored meanwhile; a callback may
    stop it: so it may end at any time. *)
From Coq Require Import ZArith List Bool Arith.
From Verif Require Import Base Cache.
Import ListNotations.
Open Scope nat_scope.

Definition wkey : Type := nat * list Z.
Definition wkey_eqb (a b : wkey) : bool := Nat.eqb (fst a) (fst b) && beqb (snd a) (snd b).

Inductive wthread :=
| TIdle
| TAdd (serial : nat) (m : list Z)               (* writer.go:47, before the load of the page *)
| TPage (serial : nat) (m : list Z) (p : nat)    (* writer.go:71, page known *)
| TAgg (serial : nat) (k : wkey)                 (* writer.go:85, aggregate known, before Observe *)
| TCap (p : nat)                                 (* writer.go:104, page loaded, before the CAS *)
| TRange (p : nat) (seen : list (list Z))        (* writer.go:116, ranging over the page *)
| TPanic.                                        (* nil dist in Finish *)

Record wstate := WS {
  c_cur : option nat;                         (* the page pointer *)
  c_pages : nat;                              (* pages allocated so far *)
  c_keys : list wkey;                         (* aggregates stored in the pages *)
  c_obs : list (wkey * nat);                  (* history: Observe calls done *)
  c_next : nat;                               (* next serial number *)
  c_threads : list wthread;
  c_caps : list nat;                          (* history: pages taken by a Capture *)
  c_out : list (wkey * list nat)              (* history: records given to callbacks *)
}.
Definition c_init (n : nat) : wstate := WS None 0 [] [] 0 (repeat TIdle n) [] [].

(** the serial numbers an aggregate has observed, oldest first *)
Definition agg_obs (k : wkey) (s : wstate) : list nat :=
  map snd (filter (fun o => wkey_eqb k (fst o)) (c_obs s)).

Definition setT (s : wstate) n t := WS (c_cur s) (c_pages s) (c_keys s) (c_obs s) (c_next s) (set_nth n t (c_threads s)) (c_caps s) (c_out s).

Inductive c_step : wstate -> wstate -> Prop :=
| cs_add s n m : nth_error (c_threads s) n = Some TIdle ->           (* writer.go:47 *)
    c_step s (WS (c_cur s) (c_pages s) (c_keys s) (c_obs s) (S (c_next s)) (set_nth n (TAdd (c_next s) m) (c_threads s)) (c_caps s) (c_out s))
| cs_load s n k m p : nth_error (c_threads s) n = Some (TAdd k m) -> c_cur s = Some p ->   (* writer.go:58-61 *)
    c_step s (setT s n (TPage k m p))
| cs_create s n k m : nth_error (c_threads s) n = Some (TAdd k m) -> c_cur s = None ->     (* writer.go:65-68; a lost CAS retries *)
    c_step s (WS (Some (c_pages s)) (S (c_pages s)) (c_keys s) (c_obs s) (c_next s) (set_nth n (TPage k m (c_pages s)) (c_threads s)) (c_caps s) (c_out s))
| cs_store s n k m p : nth_error (c_threads s) n = Some (TPage k m p) -> ~ In (p, m) (c_keys s) ->   (* writer.go:79-84 *)
    c_step s (WS (c_cur s) (c_pages s) (c_keys s ++ [(p, m)]) (c_obs s) (c_next s) (set_nth n (TAgg k (p, m)) (c_threads s)) (c_caps s) (c_out s))
| cs_found s n k m p : nth_error (c_threads s) n = Some (TPage k m p) -> In (p, m) (c_keys s) ->
    c_step s (setT s n (TAgg k (p, m)))
| cs_observe s n k key : nth_error (c_threads s) n = Some (TAgg k key) ->                   (* writer.go:87 *)
    c_step s (WS (c_cur s) (c_pages s) (c_keys s) (c_obs s ++ [(key, k)]) (c_next s) (set_nth n TIdle (c_threads s)) (c_caps s) (c_out s))
| cs_capture s n p : nth_error (c_threads s) n = Some TIdle -> c_cur s = Some p ->          (* writer.go:99-104 *)
    c_step s (setT s n (TCap p))
| cs_swap s n p : nth_error (c_threads s) n = Some (TCap p) -> c_cur s = Some p ->          (* writer.go:109-110 CAS succeeds *)
    c_step s (WS (Some (c_pages s)) (S (c_pages s)) (c_keys s) (c_obs s) (c_next s) (set_nth n (TRange p []) (c_threads s)) (c_caps s ++ [p]) (c_out s))
| cs_lost s n p : nth_error (c_threads s) n = Some (TCap p) -> c_cur s <> Some p ->         (* writer.go:111 CAS fails *)
    c_step s (setT s n TIdle)
| cs_visit s n p seen m : nth_error (c_threads s) n = Some (TRange p seen) -> In (p, m) (c_keys s) -> ~ In m seen ->
    agg_obs (p, m) s <> [] ->                                                               (* writer.go:117-120 *)
    c_step s (WS (c_cur s) (c_pages s) (c_keys s) (c_obs s) (c_next s) (set_nth n (TRange p (m :: seen)) (c_threads s)) (c_caps s)
               (c_out s ++ [((p, m), agg_obs (p, m) s)]))
| cs_panic s n p seen m : nth_error (c_threads s) n = Some (TRange p seen) -> In (p, m) (c_keys s) -> ~ In m seen ->
    agg_obs (p, m) s = [] ->                                                                (* agg.go:87 a.dist is nil *)
    c_step s (setT s n TPanic)
| cs_end s n p seen : nth_error (c_threads s) n = Some (TRange p seen) -> c_step s (setT s n TIdle).

Inductive c_reach (n : nat) : wstate -> Prop :=
| c_reach_init : c_reach n (c_init n)
| c_reach_step s s' : c_reach n s -> c_step s s' -> c_reach n s'.
