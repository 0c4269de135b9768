(** Model of database/files/file_cache.go together with the system calls of the
    files it keeps (file.go, internal/system): [FileCache] decides which handles
    are kept, handed out and closed, [Sys] what opening and closing them does to
    the process. *)
From Coq Require Import ZArith List Bool.
From Verif Require Import Base Maps Cache FileCache Sys.
Import ListNotations.
Open Scope Z_scope.

(** the cache, the process, and the handles of the files the process holds:
    the i-th of [cf_live] is the handle of the i-th of [p_held] *)
Record cfiles := CF { cf_cache : fcache; cf_proc : proc; cf_live : list Z }.
Definition cf_new (handles : Z) (rand : stream) : cfiles := CF (fc_new handles rand) (Proc k_init []) [].

(** acquireFile (file_cache.go:68-87) with what createFile or openFile would be
    called with; releaseFile (56-66), evictFile (89-105), Close (45-54); and
    FullSync or FullAsync on a file the caller holds (file.go:196-203) *)
Inductive cfop :=
| CFAcquire (path : list Z) (o : fcall)
| CFRelease (path : list Z) (h : Z)
| CFEvict (path : list Z)
| CFClose
| CFSync (h : Z).

(** where the handle is among the live ones *)
Fixpoint pos (h : Z) (l : list Z) : nat := match l with [] => O | x :: l => if x =? h then O else S (pos h l) end.

(** f.Close() of a handle *)
Definition close_handle (h : Z) (e : env) (p : proc) (live : list Z) : env * proc * list Z :=
  let '(_, e, p) := f_step (FClose (pos h live)) e p in (e, p, without (pos h live) live).
Fixpoint close_handles (hs : list Z) (e : env) (p : proc) (live : list Z) : env * proc * list Z :=
  match hs with
  | [] => (e, p, live)
  | h :: hs => let '(e, p, live) := close_handle h e p live in close_handles hs e p live
  end.

(** the handles an operation of the cache closes: [fc_step] puts them before
    those closed earlier.  evictFile and releaseFile close them after the
    critical section, when no other goroutine knows them. *)
Definition newly_closed (st st' : fcache) : list Z := firstn (length (fc_closed st') - length (fc_closed st)) (fc_closed st').
Definition cf_closing (o : fop) (e : env) (s : cfiles) : env * cfiles :=
  let st := fst (fc_step o (cf_cache s)) in
  let '(e, p, live) := close_handles (newly_closed (cf_cache s) st) e (cf_proc s) (cf_live s) in
  (e, CF st p live).

Definition cf_step (o : cfop) (e : env) (s : cfiles) : env * cfiles :=
  match o with
  | CFAcquire path o =>
      match snd (fc_step (FAcquire path false) (cf_cache s)) with
      | Some _ => (e, CF (fst (fc_step (FAcquire path false) (cf_cache s))) (cf_proc s) (cf_live s))
      | None =>
          let '(r, e, p) := f_step o e (cf_proc s) in
          match r with
          | Ok _ => (e, CF (fst (fc_step (FAcquire path true) (cf_cache s))) p (len (fc_opened (cf_cache s)) :: cf_live s))
          | _ => (e, CF (fst (fc_step (FAcquire path false) (cf_cache s))) p (cf_live s))
          end
      end
  | CFRelease path h => cf_closing (FRelease path h) e s
  | CFEvict path => cf_closing (FEvict path) e s
  | CFClose => cf_closing FileCache.FClose e s
  | CFSync h => let '(_, e, p) := f_step (FSync (pos h (cf_live s))) e (cf_proc s) in (e, CF (cf_cache s) p (cf_live s))
  end.
Fixpoint cf_run (os : list cfop) (e : env) (s : cfiles) : env * cfiles :=
  match os with [] => (e, s) | o :: os => let '(e, s) := cf_step o e s in cf_run os e s end.

(** callers release only handles they hold, under the path they acquired them
    for, and sync only those; acquiring opens or creates a file *)
Fixpoint cf_ok (os : list cfop) (e : env) (s : cfiles) : Prop :=
  match os with
  | [] => True
  | o :: os =>
      match o with
      | CFAcquire _ (FOpen _ | FCreate _ _) => True
      | CFAcquire _ _ => False
      | CFRelease path h => In h (fc_out (cf_cache s)) /\ nth_error (fc_opened (cf_cache s)) (Z.to_nat h) = Some path
      | CFSync h => In h (fc_out (cf_cache s))
      | _ => True
      end /\ let '(e, s) := cf_step o e s in cf_ok os e s
  end.
