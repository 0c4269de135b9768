(** Model of /repo/database/files/db.go:117-168, New: the options the database
    works with (64-bit platforms). *)
From Coq Require Import ZArith List Bool.
From Verif Require Import Base Typeassert Run.
Import ListNotations.
Open Scope Z_scope.

(** db.go:119-126; [procs]: GOMAXPROCS *)
Definition new_workers (procs w : Z) : Z :=
  if w =? 0 then let w := procs - 1 in if w <=? 0 then 1 else w else w.
(** db.go:129-139; [limit]: the soft limit that Getrlimit gives, an uint64, None
    if it fails *)
Definition new_handles (limit : option Z) (h : Z) : Z :=
  let h :=
    if h =? 0 then
      match limit with
      | Some cur => if i64 cur =? i64 cur then i64 (i64 cur - 512) else h
      | None => h
      end
    else h in
  if h <? 0 then 0 else h.
(** db.go:117-168: panics in make(chan, Buffer) and make([], Workers) *)
Definition new_db (procs : Z) (limit : option Z) (o : fopts) : res fopts :=
  let o' := {| fo_size := fo_size o; fo_cap := fo_cap o; fo_files := fo_files o; fo_buffer := fo_buffer o;
               fo_drop := fo_drop o; fo_handles := new_handles limit (fo_handles o);
               fo_workers := new_workers procs (fo_workers o) |} in
  if (fo_buffer o' <? 0) || (fo_workers o' <? 0) then Panic else Ok o'.
