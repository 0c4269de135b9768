(** Model of /repo/internal/tgzfs: the tree built from a tarball, opening a path,
    reading a directory. *)
From Coq Require Import ZArith List Bool.
From Verif Require Import Base Maps Query.
Import ListNotations.
Open Scope Z_scope.

(** an os.FileInfo, up to identity *)
Definition info := Z.

(** file (file.go:12-16).  [children] is a Go map; nil FileInfo is None (a
    directory that has no entry of its own in the tarball, newFile 19-23). *)
Inductive file : Type := File (fi : option info) (data : list Z) (children : list (list Z * file)).
Definition f_info (f : file) := let 'File i _ _ := f in i.
Definition f_data (f : file) := let 'File _ d _ := f in d.
Definition f_children (f : file) := let 'File _ _ c := f in c.
Definition new_file : file := File None [] [].

Definition slash : Z := 47.
Definition dot : Z := 46.

(** path.Clean at the level of components, as documented: empty components and
    "." vanish, ".." removes the component before it, at the start it stays in a
    relative path and vanishes in a rooted one.  [acc] is reversed. *)
Fixpoint clean_comps (rooted : bool) (acc : list (list Z)) (l : list (list Z)) : list (list Z) :=
  match l with
  | [] => rev acc
  | c :: r =>
    if beqb c [] || beqb c [dot] then clean_comps rooted acc r
    else if beqb c [dot; dot] then
      match acc with
      | [] => if rooted then clean_comps rooted [] r else clean_comps rooted [c] r
      | a :: acc' => if beqb a [dot; dot] then clean_comps rooted (c :: acc) r else clean_comps rooted acc' r
      end
    else clean_comps rooted (c :: acc) r
  end.

(** splitPath (fs.go:80-84): strings.Split(path.Clean(p), "/"), without the empty
    parts, which getFile skips (fs.go:92-94).  Clean of an empty relative result
    is ".". *)
Definition split_path (p : list Z) : list (list Z) :=
  let rooted := match p with c :: _ => c =? slash | [] => false end in
  match clean_comps rooted [] (split_on slash [] p) with
  | [] => if rooted then [] else [[dot]]
  | l => l
  end.

(** getFile with alloc = true (fs.go:86-106) followed by an update of the node
    found: the missing nodes are allocated *)
Fixpoint update (parts : list (list Z)) (g : file -> file) (f : file) : file :=
  match parts with
  | [] => g f
  | p :: r =>
    let 'File i d ch := f in
    let child := match mget beqb p ch with Some c => c | None => new_file end in
    File i d (mput beqb p (update r g child) ch)
  end.

(** getFile with alloc = false, without the default *)
Fixpoint find (parts : list (list Z)) (f : file) : option file :=
  match parts with
  | [] => Some f
  | p :: r => match mget beqb p (f_children f) with None => None | Some c => find r c end
  end.

(** FS (fs.go:35-38): [def] is a pointer to the node index.html, set when such an
    entry was read; nodes are never replaced, so it is that node at any later
    time *)
Record fs := { root : file; has_def : bool }.

Definition s_index : list Z := [105;110;100;101;120;46;104;116;109;108].

(** one tar entry: h.Name, h.FileInfo(), its contents *)
Record tentry := { t_name : list Z; t_info : info; t_data : list Z }.

(** the loop body of New (fs.go:53-76): setFileInfo, setData, def *)
Definition add_entry (s : fs) (e : tentry) : fs :=
  {| root := update (split_path (t_name e)) (fun f => File (Some (t_info e)) (t_data e) (f_children f)) (root s);
     has_def := has_def s || beqb (t_name e) s_index || beqb (t_name e) (dot :: slash :: s_index) |}.

(** New (fs.go:41-78) on the entries of the tarball; gzip and tar decoding are
    the standard library's, an error there makes New fail.  [root_info] is
    rootFileInfo{} *)
Definition fs_new (root_info : info) (l : list tentry) : fs :=
  fold_left add_entry l {| root := File (Some root_info) [] []; has_def := false |}.

(** Open (fs.go:108-115); None is os.ErrNotExist *)
Definition fs_open (s : fs) (name : list Z) : option file :=
  match find (split_path name) (root s) with
  | Some f => Some f
  | None => if has_def s then find [s_index] (root s) else None
  end.

(** Readdir (file.go:63-73) on the rest of the listing of a handle *)
Inductive rd (A : Type) : Type :=
| Entries (l : list A)
| EOF.
Arguments Entries {A} _.
Arguments EOF {A}.

Definition readdir {A} (count : Z) (l : list A) : res (rd A * list A) :=
  if len l =? 0 then Ok (EOF, l) else
  let count := if len l <? count then len l else count in
  if count <? 0 then Panic else
  Ok (Entries (firstn (Z.to_nat count) l), firstn (Z.to_nat (len l - count)) l).

(** a sequence of Readdir calls on one handle *)
Fixpoint readdirs {A} (counts : list Z) (l : list A) : res (list (rd A) * list A) :=
  match counts with
  | [] => Ok ([], l)
  | c :: r => do x <- readdir c l; do y <- readdirs r (snd x); Ok (fst x :: fst y, snd y)
  end.
