(** Model of concurrent Query, QueryLatest and write calls on one database
    (db_read.go:20-52, db_write.go:97-135): any number of goroutines, each
    making any calls, one after the other, under the lock pool.

    Every call is a program ([prog]) whose nodes are the atomic actions: a
    critical section of fileCache.mu, a system call, a load or a store through
    the mapping of a file.  The programs below follow metric.go line by line
    like the functions of Metric.v, with one node per action; actions of
    different goroutines interleave in any way.  The actions themselves are the
    functions of Metric.v on the shared world.

    Simplifications: as in Metric.v; reading a directory (Readdirnames) is one
    action; loading the contents of a mapped file is one action (and the loop
    of Read over one file works on what one load returned); a record or the
    metadata is stored by one action (Crash.v is about partial stores). *)
From Coq Require Import ZArith List Bool.
From Verif Require Import Base Maps Record Meta Convert File Cache Metric DbSpec LockPool.
Import ListNotations.
Open Scope Z_scope.

(** programs: [q] is the path of a file, [k] what follows given the answer.
    [POpen] is the second half of acquireFile, after the cache had no handle *)
Inductive prog (X : Type) : Type :=
| PRet (x : X)
| PExists (d : list Z) (k : bool -> prog X)                 (* system.Open / os.Open of a directory *)
| PMkdir (d : list Z) (k : bool -> prog X)                  (* os.MkdirAll *)
| PScan (d : list Z) (k : Z * Z * bool -> prog X)           (* Readdirnames and the loop over the names *)
| PAcquire (q : list Z) (e : bool) (k : res geom -> prog X) (* acquireFile(path, exists) *)
| POpen (q : list Z) (e : bool) (k : res geom -> prog X)
| PLoad (q : list Z) (k : list Z -> prog X)
| PStore (q : list Z) (c : list Z) (k : prog X)
| PRelease (q : list Z) (k : prog X)                        (* releaseFile *)
| PEvict (q : list Z) (k : prog X)                          (* evictFile *)
| PRemove (q : list Z) (k : prog X).                        (* os.Remove *)
Arguments PRet {X}. Arguments PExists {X}. Arguments PMkdir {X}. Arguments PScan {X}.
Arguments PAcquire {X}. Arguments POpen {X}. Arguments PLoad {X}. Arguments PStore {X}.
Arguments PRelease {X}. Arguments PEvict {X}. Arguments PRemove {X}.

(** sequencing *)
Fixpoint pbind {X Y} (p : prog X) (K : X -> prog Y) : prog Y :=
  match p with
  | PRet x => K x
  | PExists d k => PExists d (fun a => pbind (k a) K)
  | PMkdir d k => PMkdir d (fun a => pbind (k a) K)
  | PScan d k => PScan d (fun a => pbind (k a) K)
  | PAcquire q e k => PAcquire q e (fun a => pbind (k a) K)
  | POpen q e k => POpen q e (fun a => pbind (k a) K)
  | PLoad q k => PLoad q (fun a => pbind (k a) K)
  | PStore q c k => PStore q c (pbind k K)
  | PRelease q k => PRelease q (pbind k K)
  | PEvict q k => PEvict q (pbind k K)
  | PRemove q k => PRemove q (pbind k K)
  end.
(** [r] is an error: the program stops with it *)
Definition on_ok {A X} (r : res A) (fail : res X -> prog (res X)) (K : A -> prog (res X)) : prog (res X) :=
  match r with Ok a => K a | Err => fail Err | Panic => fail Panic | Diverge => fail Diverge end.
Notation "'pdo' x <- r ; K" := (on_ok r PRet (fun x => K)) (at level 200, x pattern, r at level 100, K at level 200).

(** metric.go:77-161 newMetric *)
Definition p_scan (dir : list Z) : prog (res metric) :=
  PScan dir (fun '(first, last, first_set) =>
    if first_set then PRet (Ok (Metric dir first last))
    else
      let path := metricFilenameAt dir 1 in
      PAcquire path false (fun r =>
        pdo _ <- r; PRelease path (PRet (Ok (Metric dir 1 1))))).
Definition p_newMetric (root name : list Z) (ro : bool) : prog (res metric) :=
  let dir := metricDir root name in
  PExists dir (fun found =>
    if found then p_scan dir
    else if ro then PRet Err
    else PMkdir dir (fun ok => if ok then p_scan dir else PRet Err)).

(** metric.go:177-212 acquireLast *)
Fixpoint p_acquireLast_ (fuel : nat) (m : metric) : prog (res (geom * Z * metric)) :=
  if t_last m <? t_first m then PRet Err
  else
    match fuel with
    | O => PRet Diverge
    | S fuel =>
        let path := filenameAt m (t_last m) in
        PAcquire path true (fun r =>
          pdo g <- r;
          PLoad path (fun c =>
            match getHeadPointer g c with
            | Ok head =>
                if (head =? g_cap g - 1) && (t_first m <? t_last m) then
                  PRelease path (PRemove path
                    (p_acquireLast_ fuel (Metric (t_dir m) (t_first m) (t_last m - 1))))
                else PRet (Ok (g, head, m))
            | Err => PRelease path (PRet Err)
            | Panic => PRet Panic
            | Diverge => PRet Diverge
            end))
    end.
Definition p_acquireLast (m : metric) : prog (res (geom * Z * metric)) :=
  p_acquireLast_ (Z.to_nat (t_last m - t_first m + 1)) m.

(** metric.go:290-301 *)
Fixpoint p_set_records (path : list Z) (g : geom) (head : Z) (recs : list record) : prog (res unit) :=
  match recs with
  | [] => PRet (Ok tt)
  | r :: rest =>
      PLoad path (fun c =>
        pdo c' <- f_set_record g head r c;
        PStore path c' (p_set_records path g (head + 1) rest))
  end.
(** metric.go:284-328 *)
Definition p_write_records (path : list Z) (g : geom) (head nr start end_ : Z) (data : list Z) : prog (res bool) :=
  let head := head - nr in
  let new_head := head - 1 in
  pdo recs <- iterateRecords start end_ data (g_size g);
  pbind (p_set_records path g head recs) (fun r =>
    pdo _ <- r;
    PLoad path (fun c =>
      pdo m <- f_metadata g c;
      pdo c' <- f_set_metadata g (next_meta m new_head start end_) c;
      PStore path c' (PRet (Ok true)))).

(** metric.go:229-328 Write after acquireLast, without the deferred release of
    the first file; [max] is db.opts.Files *)
Definition p_write_with (max : Z) (m : metric) (g : geom) (head : Z) (start end_ : Z) (data : list Z) : prog (res bool) :=
  let old := filenameAt m (t_last m) in
  let head := head + 1 in
  PLoad old (fun c =>
    let early :=
      if f_has_record g head c then
        match f_record g head c with
        | Ok r => if end_ <=? r_end r then Some (Ok false) else None
        | Err => Some Err | Panic => Some Panic | Diverge => Some Diverge
        end
      else None in
    match early with
    | Some r => PRet r
    | None =>
    pdo nr <- numRecords (len data) (g_size g);
    if nr =? 0 then PRet Err
    else if head - nr <? 0 then
      if (t_last m =? 1) && (head =? g_cap g - 1) then PRet Err
      else
        let path := filenameAt m (t_last m + 1) in
        let rest :=
          PAcquire path false (fun r =>
            pdo g' <- r;
            let head := g_cap g' in
            pbind
              (pdo nr <- numRecords (len data) (g_size g');
               if nr =? 0 then PRet Err
               else if head - nr <? 0 then PRet Err
               else p_write_records path g' head nr start end_ data)
              (fun r => PRelease path (PRet r))) in
        if (max <=? t_last m - t_first m) && (0 <? max) then
          let first_path := filenameAt m (t_first m) in
          PEvict first_path (PRemove first_path rest)
        else rest
    else p_write_records old g head nr start end_ data
    end).

(** metric.go:218-329 Write *)
Definition p_Write (max : Z) (m : metric) (start end_ : Z) (data : list Z) : prog (res bool) :=
  pbind (p_acquireLast m) (fun r =>
    pdo x <- r;
    let '(g, head, m) := x in
    pbind (p_write_with max m g head start end_ data) (fun r =>
      PRelease (filenameAt m (t_last m)) (PRet r))).

(** metric.go:337-494 Read *)
Fixpoint p_Read_ {A} (cb : callback A) (fuel : nat) (m : metric) (num end_ : Z) (acc : A) : prog (A * res unit) :=
  if num <? t_first m then PRet (acc, Ok tt)
  else
    match fuel with
    | O => PRet (acc, Diverge)
    | S fuel =>
        let path := filenameAt m num in
        PAcquire path true (fun r =>
          match r with
          | Ok g =>
              PLoad path (fun c =>
                let '(acc, r) := read_file cb g c end_ acc in
                PRelease path
                  (match r with
                   | Ok true => p_Read_ cb fuel m (num - 1) end_ acc
                   | Ok false => PRet (acc, Ok tt)
                   | Err => PRet (acc, Err)
                   | Panic => PRet (acc, Panic)
                   | Diverge => PRet (acc, Diverge)
                   end))
          | Err => PRet (acc, Err)
          | Panic => PRet (acc, Panic)
          | Diverge => PRet (acc, Diverge)
          end)
    end.

(** db_write.go:97-117 write, db_read.go:20-52 Query and QueryLatest, inside the
    lock.  [OReopen] is not a call *)
Definition p_query {A} (root : list Z) (cb : callback A) (name : list Z) (end_ : Z) (acc : A) : prog (A * res unit) :=
  pbind (p_newMetric root name true) (fun r =>
    match r with
    | Ok m => p_Read_ cb (Z.to_nat (t_last m - t_first m + 1)) m (t_last m) end_ acc
    | Err => PRet (acc, Err)
    | Panic => PRet (acc, Panic)
    | Diverge => PRet (acc, Diverge)
    end).
Definition p_write (root : list Z) (max : Z) (name : list Z) (start end_ : Z) (data : list Z) : prog (res bool) :=
  pbind (p_newMetric root name false) (fun r => pdo m <- r; p_Write max m start end_ data).
Definition prog_of (root : list Z) (max : Z) (o : op) : prog outcome :=
  match o with
  | OWrite name v => pbind (p_write root max name (v_start v) (v_end v) (v_data v)) (fun r => PRet (RWrite r))
  | OQuery name e => pbind (p_query root collect_cb name e []) (fun '(l, r) => PRet (RQuery l r))
  | OLatest name => pbind (p_query root latest_cb name (2 ^ 63 - 1) None) (fun '(x, r) => PRet (RLatest x r))
  | OReopen _ _ _ _ _ => PRet RReopen
  end.
Definition name_of (o : op) : list Z :=
  match o with OWrite n _ | OQuery n _ | OLatest n => n | OReopen _ _ _ _ _ => [] end.
Definition is_call (o : op) : Prop := match o with OReopen _ _ _ _ _ => False | _ => True end.

(** the handles a goroutine holds, by path *)
Definition held_handles := list (list Z * handle).
Definition held_at (h : held_handles) (q : list Z) : handle :=
  match mget beqb q h with Some f => f | None => handle_zero end.

(** one action of a goroutine on the shared world *)
Definition prog_step {X} (p : prog X) (h : held_handles) (st : db) : db * held_handles * prog X :=
  match p with
  | PRet x => (st, h, p)
  | PExists d k => (st, h, k (dir_exists d st))
  | PMkdir d k => let '(st', ok) := mkdirAll d st in (st', h, k ok)
  | PScan d k => (st, h, k (fold_left scan_step (listdir d st) (0, 0, false)))
  | PAcquire q e k =>
      (* file_cache.go:73-78, the critical section *)
      let '(st', hit) :=
        match mget beqb q (w_toks st) with
        | None => (st, None)
        | Some tok => let '(c, r) := cache_take handle_zero (w_cache st) tok in
                      (set_fch st (w_toks st) c, r)
        end in
      match hit with
      | Some f => (st', mput beqb q f h, k (Ok (h_geom f)))
      | None => (st', h, POpen q e k)
      end
  | POpen q e k =>
      (* file_cache.go:84-87 *)
      let '(st', r) := if e then (st, do_open q st) else do_create q st in
      match r with
      | Ok f => (st', mput beqb q f h, k (Ok (h_geom f)))
      | Err => (st', h, k Err) | Panic => (st', h, k Panic) | Diverge => (st', h, k Diverge)
      end
  | PLoad q k => (st, h, k (contents st (h_ino (held_at h q))))
  | PStore q c k => (set_contents st (h_ino (held_at h q)) c, h, k)
  | PRelease q k => (releaseFile q (held_at h q) st, mdel beqb q h, k)
  | PEvict q k => (evictFile q st, h, k)
  | PRemove q k => (osRemove q st, h, k)
  end.

(** ** goroutines *)
Inductive event := EInv (t : nat) (o : op) | ERes (t : nat) (r : outcome).

(** a goroutine: where it is with respect to the lock pool, the call it makes
    ([None]: between calls), the rest of its program, its handles *)
Record cthread := CT { ct_lock : lthread; ct_call : option (op * prog outcome); ct_held : held_handles }.
Record csys := CS { cs_db : db; cs_pool : lpool; cs_threads : list cthread; cs_log : list event }.

(** fileCache.Close (file_cache.go:43-52): Run ends (db.go:227) *)
Definition close_cache (st : db) : db := set_fch st [] (fst (cache_take_all handle_zero (w_cache st))).

Definition is_ret {X} (p : prog X) : bool := match p with PRet _ => true | _ => false end.

Inductive conc_step : csys -> csys -> Prop :=
(* a call begins: the first critical section of Lock(name) *)
| cs_call s t h o p' l' :
    nth_error (cs_threads s) t = Some (CT LIdle None h) -> is_call o ->
    lp_step (name_of o) (cs_pool s) LIdle = Some (p', l') ->
    conc_step s (CS (cs_db s) p'
      (set_nth t (CT l' (Some (o, prog_of (w_root (cs_db s)) (w_max (cs_db s)) o)) []) (cs_threads s))
      (cs_log s ++ [EInv t o]))
(* the mutex of the name is taken; or Unlock's second half *)
| cs_lock s t l o p h p' l' :
    nth_error (cs_threads s) t = Some (CT l (Some (o, p)) h) ->
    match l with LWait _ _ | LOut _ _ => True | _ => False end ->
    lp_step [] (cs_pool s) l = Some (p', l') ->
    conc_step s (CS (cs_db s) p' (set_nth t (CT l' (Some (o, p)) h) (cs_threads s)) (cs_log s))
(* one action *)
| cs_act s t k i o p h st' h' q :
    nth_error (cs_threads s) t = Some (CT (LIn k i) (Some (o, p)) h) -> is_ret p = false ->
    prog_step p h (cs_db s) = (st', h', q) ->
    conc_step s (CS st' (cs_pool s) (set_nth t (CT (LIn k i) (Some (o, q)) h') (cs_threads s)) (cs_log s))
(* the deferred Unlock(name) begins *)
| cs_unlock s t k i o r h p' l' :
    nth_error (cs_threads s) t = Some (CT (LIn k i) (Some (o, PRet r)) h) ->
    lp_step [] (cs_pool s) (LIn k i) = Some (p', l') ->
    conc_step s (CS (cs_db s) p' (set_nth t (CT l' (Some (o, PRet r)) h) (cs_threads s)) (cs_log s))
(* the call returns *)
| cs_return s t o r h :
    nth_error (cs_threads s) t = Some (CT LIdle (Some (o, PRet r)) h) ->
    conc_step s (CS (cs_db s) (cs_pool s) (set_nth t (CT LIdle None []) (cs_threads s)) (cs_log s ++ [ERes t r]))
(* the cache is emptied *)
| cs_close s :
    conc_step s (CS (close_cache (cs_db s)) (cs_pool s) (cs_threads s) (cs_log s)).

(** [n] goroutines on an empty database directory *)
Definition conc_init (n : nat) (root : list Z) (size cap max handles : Z) (rand : stream) : csys :=
  CS (db_empty root size cap max handles rand) lp_new (repeat (CT LIdle None []) n) [].
Inductive conc_reach (n : nat) (root : list Z) (size cap max handles : Z) (rand : stream) : csys -> Prop :=
| cr_init : conc_reach n root size cap max handles rand (conc_init n root size cap max handles rand)
| cr_step s s' : conc_reach n root size cap max handles rand s -> conc_step s s' ->
    conc_reach n root size cap max handles rand s'.
