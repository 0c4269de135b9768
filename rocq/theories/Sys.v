(** Model of the system calls of database/files/file.go (createFile, openFile,
    Close, FullSync, FullAsync) and of database/files/internal/system (mmap.go,
    alloc_linux.go): which descriptors are open and which mappings exist, whatever
    calls fail.  The contents of the files are those of File.v. *)
From Coq Require Import ZArith List Bool.
From Verif Require Import Base Crc Record Pb Meta File.
Import ListNotations.
Open Scope Z_scope.

(** the part of the process the kernel keeps: open descriptors, and mappings as
    (address, length).  Descriptors and addresses are never given out twice in
    the model, which makes leaks and double uses visible; an address is not 0. *)
Record kernel := Kernel { k_fds : list Z; k_maps : list (Z * Z); k_next : Z }.
Definition k_init : kernel := Kernel [] [] 1.

(** the system calls still to come, and the munmap calls among them: do they
    work?  When a list is empty they do. *)
Definition env : Type := list bool * list bool.
Definition call (e : env) : bool * env := match fst e with [] => (true, e) | b :: l => (b, (l, snd e)) end.
Definition call_unmap (e : env) : bool * env := match snd e with [] => (true, e) | b :: l => (b, (fst e, l)) end.

(** open(2) *)
Definition sys_open (e : env) (k : kernel) : option Z * env * kernel :=
  let '(ok, e) := call e in
  if ok then (Some (k_next k), e, Kernel (k_next k :: k_fds k) (k_maps k) (k_next k + 1)) else (None, e, k).
(** close(2): the descriptor is gone also when it reports an error, which
    [defer fh.Close()] ignores *)
Definition sys_close (fd : Z) (k : kernel) : kernel := Kernel (remove Z.eq_dec fd (k_fds k)) (k_maps k) (k_next k).
(** mmap.go:15-22 Mmap *)
Definition sys_mmap (n : Z) (e : env) (k : kernel) : option Z * env * kernel :=
  let '(ok, e) := call e in
  if ok then (Some (k_next k), e, Kernel (k_fds k) ((k_next k, n) :: k_maps k) (k_next k + 1)) else (None, e, k).
Fixpoint unmap (a n : Z) (l : list (Z * Z)) : list (Z * Z) :=
  match l with [] => [] | (b, m) :: l => if (b =? a) && (m =? n) then l else (b, m) :: unmap a n l end.
(** mmap.go:24-30 Munmap: the error returned is Error.Wrap(err) of the named
    result, which is nil, and not of the error code [ec] *)
Definition sys_munmap (a n : Z) (e : env) (k : kernel) : res unit * env * kernel :=
  let '(ok, e) := call_unmap e in
  if ok then (Ok tt, e, Kernel (k_fds k) (unmap a n (k_maps k)) (k_next k)) else (Ok tt, e, k).
(** mmap.go:32-39 Msync: the same *)
Definition sys_msync (a n : Z) (e : env) (k : kernel) : res unit * env * kernel :=
  let '(ok, e) := call e in (Ok tt, e, k).

(** file.go:20-27 type file; [ref] (file_no_debug.go) has no content *)
Record mfile := MFile { mf_data : Z; mf_len : Z; mf_geom : geom }.

(** file.go:32-81 createFile: what is left in the file, and the file *)
Definition create_file (size cap : Z) (e : env) (k : kernel) : list Z * res mfile * env * kernel :=
  let '(fd, e, k) := sys_open e k in
  match fd with
  | None => ([], Err, e, k)
  | Some fd =>
    (* l.40: defer fh.Close() *)
    if (i64 (cap + 1) <? cap) || negb (i32 cap =? cap) || negb (i32 size =? size) then ([], Err, e, sys_close fd k)
    else if cap =? 0 then ([], Panic, e, sys_close fd k)
    else if negb (i32 (Z.quot (i32 (size * cap)) cap) =? size) then ([], Err, e, sys_close fd k)
    else
      let n := size * (cap + 1) in
      (* alloc_linux.go: fallocate refuses lengths that are not positive *)
      let '(ok, e) := call e in
      if negb ok || (n <=? 0) then ([], Err, e, sys_close fd k)
      else
        let zeros := repeat 0 (Z.to_nat n) in
        let '(data, e, k) := sys_mmap n e k in
        match data with
        | None => (zeros, Err, e, sys_close fd k)
        | Some data =>
          if size <? 0 then (zeros, Panic, e, sys_close fd k)
          else
            match writeMetadata (sub 0 size zeros) (Meta size (cap - 1) 0 0 0) with
            | Ok b => (put 0 b zeros, Ok (MFile data n (Geom cap size)), e, sys_close fd k)
            | _ => (zeros, Err, e, sys_close fd k)
            end
        end
  end.

(** file.go:84-127 openFile of a file that holds [c]; None: there is no such file *)
Definition open_file (c : option (list Z)) (e : env) (k : kernel) : res mfile * env * kernel :=
  match c with
  | None => (Err, snd (call e), k)
  | Some c =>
    let '(fd, e, k) := sys_open e k in
    match fd with
    | None => (Err, e, k)
    | Some fd =>
      let '(ok, e) := call e in
      if negb ok then (Err, e, sys_close fd k)
      else if len c <? recordHeaderSize then (Err, e, sys_close fd k)
      else
        let '(data, e, k) := sys_mmap (len c) e k in
        match data with
        | None => (Err, e, sys_close fd k)
        | Some data =>
          match readMetadata c with
          | Ok m =>
            if m_size m <? recordHeaderSize then (Err, e, sys_close fd k)
            else (Ok (MFile data (len c) (Geom (len c / m_size m - 1) (m_size m))), e, sys_close fd k)
          | Err => (Err, e, sys_close fd k)
          | Panic => (Panic, e, sys_close fd k)
          | Diverge => (Diverge, e, sys_close fd k)   (* never (C08) *)
          end
        end
    end
  end.

(** file.go:146-152 Close *)
Definition close_file (f : mfile) (e : env) (k : kernel) : res unit * env * kernel :=
  if negb (mf_data f =? 0) then sys_munmap (mf_data f) (mf_len f) e k else (Ok tt, e, k).
(** file.go:196-203 FullSync and FullAsync *)
Definition sync_file (f : mfile) (e : env) (k : kernel) : res unit * env * kernel := sys_msync (mf_data f) (mf_len f) e k.

(** ** a process that creates, opens, syncs and closes files.  [p_held] are the
    files it got and did not close. *)
Inductive fcall :=
| FCreate (size cap : Z)
| FOpen (c : option (list Z))
| FSync (i : nat)       (* of the held files *)
| FClose (i : nat).
Record proc := Proc { p_kernel : kernel; p_held : list mfile }.
Fixpoint without {A} (i : nat) (l : list A) : list A :=
  match l, i with [], _ => [] | _ :: l, O => l | x :: l, S i => x :: without i l end.
Definition f_step (o : fcall) (e : env) (p : proc) : res unit * env * proc :=
  match o with
  | FCreate size cap =>
      let '(_, r, e, k) := create_file size cap e (p_kernel p) in
      match r with
      | Ok f => (Ok tt, e, Proc k (f :: p_held p)) | Err => (Err, e, Proc k (p_held p))
      | Panic => (Panic, e, Proc k (p_held p)) | Diverge => (Diverge, e, Proc k (p_held p))
      end
  | FOpen c =>
      let '(r, e, k) := open_file c e (p_kernel p) in
      match r with
      | Ok f => (Ok tt, e, Proc k (f :: p_held p)) | Err => (Err, e, Proc k (p_held p))
      | Panic => (Panic, e, Proc k (p_held p)) | Diverge => (Diverge, e, Proc k (p_held p))
      end
  | FSync i =>
      match nth_error (p_held p) i with
      | None => (Ok tt, e, p)
      | Some f => let '(r, e, k) := sync_file f e (p_kernel p) in (r, e, Proc k (p_held p))
      end
  | FClose i =>
      match nth_error (p_held p) i with
      | None => (Ok tt, e, p)
      | Some f => let '(r, e, k) := close_file f e (p_kernel p) in (r, e, Proc k (without i (p_held p)))
      end
  end.
Fixpoint f_run (os : list fcall) (e : env) (p : proc) : list (res unit) * env * proc :=
  match os with
  | [] => ([], e, p)
  | o :: os => let '(r, e, p) := f_step o e p in let '(rs, e, p) := f_run os e p in (r :: rs, e, p)
  end.
