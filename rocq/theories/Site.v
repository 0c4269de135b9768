(** Model of /repo/internal/tmplfs/fs.go (html files are templates), of the handles
    of /repo/internal/tgzfs/file.go, of the file server of net/http that serves
    them (run.go:124-131), and of run.go's page for a build without a ui. *)
From Coq Require Import ZArith List Bool String.
From Verif Require Import Base Maps Query Server Tgzfs.
Import ListNotations.
Open Scope Z_scope.
Open Scope list_scope.

(** bytes.Reader as documented: the text and the position.  ReadAll takes what
    is left and moves to the end. *)
Record reader := Rd { r_text : list Z; r_pos : Z }.
Definition rd_new (text : list Z) : reader := Rd text 0.
Definition rd_rest (r : reader) : list Z := skipn (Z.to_nat (r_pos r)) (r_text r).
Definition rd_read_all (r : reader) : list Z * reader := (rd_rest r, Rd (r_text r) (Z.max (r_pos r) (len (r_text r)))).
Definition rd_copy_n (n : Z) (r : reader) : list Z := firstn (Z.to_nat n) (rd_rest r).

(** fileHandle (tgzfs/file.go:48-52); None is the nil FileInfo of a directory
    without an entry of its own.  [Wrapped] is the fileWrapper of
    tmplfs/fs.go:88-93: the embedded file, size, data. *)
Inductive handle :=
| Plain (fi : option info) (listing : list (option info)) (data : reader)
| Wrapped (fi : option info) (listing : list (option info)) (under : reader) (size : Z) (data : reader).

(** file.open (tgzfs/file.go:37-46) *)
Definition open_node (f : file) : handle :=
  Plain (f_info f) (map (fun c => f_info (snd c)) (f_children f)) (rd_new (f_data f)).

Definition has_suffix (s p : list Z) : bool := beqb (skipn (List.length p - List.length s) p) s.
Definition s_html : list Z := bytes_of ".html".
Definition s_slash_index : list Z := bytes_of "/index.html".

(** what the template sees of the request (fs.go:72-76) *)
Record tvals := Vals { v_query : list Z; v_metric : list Z; v_dev : bool }.

Section Site.
(** html/template: Parse and Execute; None when either fails *)
Variable render : list Z -> tvals -> option (list Z).
(** what a FileInfo says *)
Variable is_dir : info -> bool.
Variable info_size : info -> Z.

(** the deferred function of Open (fs.go:53-57).  [f] is the named result, which
    every return statement has assigned by then, so an error return has made it
    nil and f.Close() panics. *)
Definition open_deferred (f : option handle) (err : bool) : res (option handle) :=
  if err then match f with None => Panic | Some _ => Ok None end else Ok f.

(** wrapper.Open (fs.go:42-86) over tgzfs; Ok None is os.ErrNotExist *)
Definition w_open (s : fs) (v : tvals) (name : list Z) : res (option handle) :=
  match fs_open s name with
  | None => Ok None
  | Some node =>
    match open_node node with
    | Plain fi ls d =>
      if negb (has_suffix s_html name) then Ok (Some (Plain fi ls d))
      else
        let '(data, d') := rd_read_all d in
        match render data v with
        | None => open_deferred None true
        | Some text => open_deferred (Some (Wrapped fi ls d' (len text) (rd_new text))) false
        end
    | h => Ok (Some h)
    end
  end.

(** Stat (tgzfs/file.go:83-86, tmplfs/fs.go:106-117): IsDir and Size; a nil
    FileInfo panics as soon as a method of it is called *)
Definition stat (h : handle) : res (bool * Z) :=
  match h with
  | Plain (Some i) _ _ => Ok (is_dir i, info_size i)
  | Wrapped (Some i) _ _ size _ => Ok (is_dir i, size)
  | _ => Panic
  end.
Definition h_data (h : handle) : reader := match h with Plain _ _ d => d | Wrapped _ _ _ _ d => d end.
Definition h_listing (h : handle) : list (option info) := match h with Plain _ l _ => l | Wrapped _ l _ _ _ => l end.

(** an answer of the static site; the target of a redirection is left out *)
Inductive answer :=
| Redirect
| Status (code : Z)
| Content (size : Z) (body : list Z).   (* 200, the Content-Length, the bytes sent *)

(** net/http's serveContent without Range and conditional headers: the size of
    the FileInfo, then that many bytes of the file from its start *)
Definition serve_content (size : Z) (h : handle) : answer := Content size (rd_copy_n size (h_data h)).

(** net/http's dirList: Readdir(-1) (tgzfs/file.go:66-77, C50); its errors are 500 *)
Definition dir_list (h : handle) : res answer :=
  do x <- readdir (-1) (h_listing h); Ok (match fst x with EOF => Status 500 | Entries _ => Status 200 end).

(** path.Clean of a rooted path, put together again *)
Fixpoint join_slash (l : list (list Z)) : list Z :=
  match l with
  | [] => []
  | [c] => c
  | c :: r => c ++ slash :: join_slash r
  end.
Definition clean_path (p : list Z) : list Z := slash :: join_slash (split_path p).
Definition trim_slash (p : list Z) : list Z := if has_suffix [slash] p then firstn (List.length p - 1) p else p.

(** FS.ServeHTTP (fs.go:28-33): net/http's FileServer (ServeHTTP and serveFile)
    over the wrapper of this request *)
Definition site (s : fs) (v : tvals) (path : list Z) : res answer :=
  let upath := match path with c :: _ => if c =? slash then path else slash :: path | [] => [slash] end in
  if has_suffix s_slash_index upath then Ok Redirect else
  let name := clean_path upath in
  do o <- w_open s v name;
  match o with
  | None => Ok (Status 404)
  | Some h =>
    do d <- stat h;
    if fst d then
      if negb (has_suffix [slash] upath) then Ok Redirect else
      do o2 <- w_open s v (trim_slash name ++ s_slash_index);
      match o2 with
      | None => dir_list h
      | Some h2 => do d2 <- stat h2; if fst d2 then dir_list h2 else Ok (serve_content (snd d2) h2)
      end
    else if has_suffix [slash] upath then Ok Redirect
    else Ok (serve_content (snd d) h)
  end.

End Site.

(** tarballWarning.ServeHTTP (run.go:293-319): its status for a path *)
Definition tarball_warning (path : list Z) : Z :=
  if beqb path (bytes_of "/index.html") || beqb path (bytes_of "index.html") || beqb path (bytes_of "/") || beqb path []
  then 200 else 404.

(** run.go:124-131: the static handler of `rothko run`; ui.Tarball is None in a
    build without a ui; its status for a path (a panic is cut off by net/http's
    connection handler, written 0) *)
Definition status_of_site (r : res answer) : Z :=
  match r with Ok Redirect => 301 | Ok (Status c) => c | Ok (Content _ _) => 200 | _ => 0 end.
Definition static_handler (render : list Z -> tvals -> option (list Z)) (is_dir : info -> bool) (info_size : info -> Z)
  (ui : option fs) (v : tvals) : list Z -> Z :=
  match ui with
  | None => tarball_warning
  | Some s => fun p => status_of_site (site render is_dir info_size s v p)
  end.
