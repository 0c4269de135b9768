(** Model of the commands, /repo/main.go:23-38, init.go:31-52, run.go:43-65,
    demo.go:37-60, utils.go:16-25.

    Simplifications: of the command line library only the call of the action of the
    named command with its number of arguments is modelled; an error is the class
    that main.go looks at ([handled] or not), its text is left out; what is printed
    is a list of messages. *)
From Coq Require Import ZArith List Bool.
From Verif Require Import Base InitialConfig.
Import ListNotations.
Open Scope Z_scope.

Inductive error := Handled | Unexpected.
Inductive message :=
| MUsage           (* "Incorrect Usage: ..." and the help of the command *)
| MExists          (* "config file already exists. remove "rothko.toml" first" *)
| MWrote           (* "wrote initial config to "rothko.toml"" *)
| MInvalid         (* "Invalid Configuration: ..." *)
| MUnexpected.     (* "unexpected error: ..." *)

(** utils.go:16-25 checkArgs *)
Definition check_args (narg expected : Z) : option error * list message :=
  if negb (narg =? expected) then (Some Handled, [MUsage]) else (None, []).

(** ioutil.WriteFile (open with O_CREATE and O_TRUNC, write): works; the open
    fails; or the file was made empty and the first [k] bytes were written *)
Inductive wresult := WWorks | WNoOpen | WShort (k : nat).
Definition write_file (w : wresult) (data : list Z) (f : option (list Z)) : option (list Z) * bool :=
  match w with
  | WWorks => (Some data, true)
  | WNoOpen => (f, false)
  | WShort k => (Some (firstn k data), false)
  end.

(** init.go:31-52.  [f] is the contents of rothko.toml, None if there is none;
    [stat_fails]: os.Stat fails with another error than "does not exist";
    [other]: what other processes do to the file between Stat and WriteFile. *)
Definition init_action (narg : Z) (stat_fails : bool) (other : option (list Z) -> option (list Z)) (w : wresult)
    (f : option (list Z)) : option error * option (list Z) * list message :=
  let '(err, out) := check_args narg 0 in
  match err with
  | Some e => (Some e, f, out)
  | None =>
    if stat_fails then (Some Unexpected, f, out)
    else match f with
         | Some _ => (Some Handled, f, out ++ [MExists])
         | None =>
           let '(f, ok) := write_file w initial_config (other f) in
           if ok then (None, f, out ++ [MWrote]) else (Some Unexpected, f, out)
         end
  end.

(** run.go:43-65 and demo.go:37-60, which differ in the function they call
    ([start]: run or demo; its results: started, and the error, which has another
    class than [handled]).  [file]: what ReadFile of the argument gives. *)
Definition start_action {C} (narg : Z) (file : option (list Z)) (load : list Z -> res C) (start : C -> bool * bool)
  : option error * list message :=
  let '(err, out) := check_args narg 1 in
  match err with
  | Some e => (Some e, out)
  | None =>
    match file with
    | None => (Some Unexpected, out)
    | Some data =>
      match load data with
      | Ok conf =>
        let '(started, failed) := start conf in
        if started then (if failed then Some Unexpected else None, out)
        else (if failed then Some Handled else None, out ++ [MInvalid])
      | _ => (Some Unexpected, out)
      end
    end
  end.

(** main.go:31-37: the status of the process and what is printed *)
Definition main (r : option error * list message) : Z * list message :=
  match fst r with
  | Some Handled => (1, snd r)
  | Some Unexpected => (1, snd r ++ [MUnexpected])
  | None => (0, snd r)
  end.
Definition init_main narg stat_fails other w f : (Z * list message) * option (list Z) :=
  let '(err, f, out) := init_action narg stat_fails other w f in (main (err, out), f).
