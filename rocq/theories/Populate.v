(** Model of the directory walk of PopulateMetrics: db_read.go:142-248, and of
    system.NextDirent (internal/system/dirent.go, dirent_read_linux.go). *)
From Coq Require Import ZArith List Bool.
From Verif Require Import Base Maps Cache Convert Sset.
Import ListNotations.
Open Scope Z_scope.

(** encoding/binary.LittleEndian *)
Fixpoint le (k : nat) (n : Z) : list Z :=
  match k with O => [] | S k => n mod 256 :: le k (n / 256) end.
Fixpoint unle (l : list Z) : Z :=
  match l with [] => 0 | b :: l => b + 256 * unle l end.

(** dirent.go:9-25 readInt, for the sizes 2 and 8 *)
Definition readInt (b : list Z) (off size : Z) : option Z :=
  if len b <? off + size then None else Some (unle (sub off size b)).

(** dirent_read_linux.go: the layout of syscall.Dirent on linux/amd64: Ino at 0,
    Off at 8, Reclen at 16, Type at 18, Name at 19 *)
Definition nameOffset : Z := 19.
Definition direntReadIno (buf : list Z) := readInt buf 0 8.
Definition direntReadReclen (buf : list Z) := readInt buf 16 2.
Definition direntReadNamlen (buf : list Z) : option Z :=
  match direntReadReclen buf with Some r => Some (u64 (r - nameOffset)) | None => None end.

(** dirent.go:52-58 *)
Fixpoint untilZero (l : list Z) : list Z :=
  match l with [] => [] | c :: l => if c =? 0 then [] else c :: untilZero l end.

(** dirent.go:27-61 NextDirent: out_buf, name and ok *)
Definition nextDirent (buf : list Z) : res (list Z * list Z * bool) :=
  match direntReadReclen buf with
  | None => Ok ([], [], false)
  | Some rec_len =>
      if len buf <? rec_len then Ok ([], [], false)
      else
        let rec := sub 0 rec_len buf in
        let buf := skipn (Z.to_nat rec_len) buf in
        match direntReadIno rec with
        | None => Ok (buf, [], false)
        | Some ino =>
            if ino =? 0 then Ok (buf, [], false)
            else
              match direntReadNamlen rec with
              | None => Ok (buf, [], false)
              | Some name_len =>
                  let e := u64 (nameOffset + name_len) in
                  if len rec <? e then Ok (buf, [], false)
                  else if e <? nameOffset then Panic        (* slice bounds *)
                  else
                    let name := untilZero (sub nameOffset (e - nameOffset) rec) in
                    Ok (buf, name, negb (beqb name [46]) && negb (beqb name [46; 46]))
              end
        end
  end.

(** db_read.go:205-213 the inner loop over one buffer: the names it handles, in
    order.  Every round but those with a zero record length shortens the buffer,
    so [fuel] = S (length buf) rounds are reached only by a loop that never ends
    (PopulateProofs.scan_diverge). *)
Fixpoint scan (fuel : nat) (buf : list Z) : res (list (list Z)) :=
  match fuel with
  | O => Diverge
  | S fuel =>
      if len buf =? 0 then Ok []
      else
        do r <- nextDirent buf;
        do names <- scan fuel (fst (fst r));
        Ok (if snd r then snd (fst r) :: names else names)
  end.
Definition scanDirents (buf : list Z) : res (list (list Z)) := scan (S (length buf)) buf.

(** a file system tree; the order of entries is the order of getdents *)
Inductive node := NFile | NDir (entries : list (list Z * node)).

(** db_read.go:217-220, and metricToPath: dir/name without a leading slash *)
Definition joinPath (d name : list Z) : list Z :=
  if 0 <? len d then d ++ [c_slash] ++ name else name.

(** db_read.go:160-248 populate, for an uncancelled context and system calls that
    fail only with ENOTDIR; the kernel's buffers are taken as already parsed into
    the entries other than . and .. (C32) *)
Fixpoint populate (t : node) (dirbuf : list Z) (out : sset) {struct t} : res sset :=
  match t with
  | NFile => Ok out
  | NDir es =>
      (fix go (es : list (list Z * node)) (added : bool) (out : sset) {struct es} : res sset :=
         match es with
         | [] => Ok out
         | (name, child) :: es =>
             if hasSuffix name s_data then
               if added then go es added out
               else do m <- dirToMetric dirbuf; go es true (s_add m out)
             else
               do out <- populate child (joinPath dirbuf name) out;
               go es added out
         end) es false out
  end.

(** the loop over the entries of a directory, by itself *)
Fixpoint popEntries (es : list (list Z * node)) (dirbuf : list Z) (added : bool) (out : sset) {struct es} : res sset :=
  match es with
  | [] => Ok out
  | (name, child) :: es =>
      if hasSuffix name s_data then
        if added then popEntries es dirbuf added out
        else do m <- dirToMetric dirbuf; popEntries es dirbuf true (s_add m out)
      else
        do out <- populate child (joinPath dirbuf name) out;
        popEntries es dirbuf added out
  end.

(** specification: the paths, relative to the root, of the regular files *)
Fixpoint files (t : node) (d : list Z) : list (list Z) :=
  match t with
  | NFile => [d]
  | NDir es => flat_map (fun e => files (snd e) (joinPath d (fst e))) es
  end.
(** names are not empty and have no slash; directories have no dot in their name
    (the database makes only such: C02) *)
Fixpoint okTree (t : node) : Prop :=
  match t with
  | NFile => True
  | NDir es =>
      (fix all (es : list (list Z * node)) : Prop :=
         match es with
         | [] => True
         | (name, child) :: es =>
             name <> [] /\ ~ In 47 name /\
             match child with NFile => True | NDir _ => ~ In 46 name end /\
             okTree child /\ all es
         end) es
  end.

(** creating the file with the given path components below t, and its parents
    (os.MkdirAll, then open with O_CREATE); a component that exists as a
    regular file leaves the tree unchanged *)
Fixpoint update (name : list Z) (f : option node -> node) (es : list (list Z * node)) : list (list Z * node) :=
  match es with
  | [] => [(name, f None)]
  | (n, c) :: es => if beqb n name then (n, f (Some c)) :: es else (n, c) :: update name f es
  end.
Fixpoint mkFile (comps : list (list Z)) (t : option node) : node :=
  match comps with
  | [] => match t with Some t => t | None => NFile end
  | c :: comps =>
      match t with
      | Some NFile => NFile
      | Some (NDir es) => NDir (update c (mkFile comps) es)
      | None => NDir (update c (mkFile comps) [])
      end
  end.
