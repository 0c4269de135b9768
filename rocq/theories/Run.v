(** Model of the start of a process, /repo/run.go:72-185 (run up to the launch),
    with the registrations of the built-in components (main.go:10-12 imports
    their packages for their init functions). *)
From Coq Require Import ZArith List Bool.
From Verif Require Import Base Maps Typeassert Registry Config.
Import ListNotations.
Open Scope Z_scope.

(** what makers give: the built-in components with their settings, or something
    a plugin made *)
Inductive component : Type :=
| FilesDB (dir : list Z) (o : fopts)
| TDigest (compression : Z)
| Graphite (addr : list Z)
| Foreign (id : Z).

Definition lift {A} (f : A -> component) (r : res A) : act value component :=
  Ret (match r with Ok a => Ok (f a) | Err => Err | Panic => Panic | Diverge => Diverge end).

Definition n_files : list Z := [102;105;108;101;115].
Definition n_tdigest : list Z := [116;100;105;103;101;115;116].
Definition n_graphite : list Z := [103;114;97;112;104;105;116;101].

(** database/files/register.go:34 calls New (db.go:117-168) once the fields were
    read: make(chan, Buffer) (line 142) and make([], Workers) (line 144; a 0 was
    replaced by at least 1) panic when the size is negative.  Sizes that are too
    large to allocate are not modelled; the defaults are in NewDb.v. *)
Definition new_panics (o : fopts) : bool := (fo_buffer o <? 0) || (fo_workers o <? 0).
Definition files_db_maker (c : value) : res component :=
  do p <- files_maker c; if new_panics (snd p) then Panic else Ok (FilesDB (fst p) (snd p)).

(** database/files/register.go:13, dist/tdigest/register.go:13,
    listener/graphite/register.go:13: the calls made by the init functions (Go
    runs them in the order of package initialisation; the names differ in kind) *)
Definition inits : list (rop value component) :=
  [ Reg KDatabase n_files (fun c => lift (fun x => x) (files_db_maker c));
    Reg KDist n_tdigest (fun c => lift TDigest (tdigest_maker c));
    Reg KListener n_graphite (fun c => lift Graphite (graphite_maker c)) ].

(** log lines (external.Infow): the message and its fields; configurations are
    logged as values *)
Inductive logline : Type :=
| LPlugin (path : list Z)
| LDatabase (e : entity)            (* creating database *)
| LDist (e : entity)                (* creating distribution *)
| LApi (a : api_config)             (* creating api *)
| LListener (e : entity).           (* creating listener *)

(** what run queues on the launchers (run.go:142-214) *)
Record launched := { g_db : component; g_params : component; g_listeners : list component;
  g_period : Z; g_api : api_config }.

(** plugin.Open (run.go:74-83): may fail, or runs the init functions of the
    plugin, which may register makers *)
Fixpoint load_plugins (open : list Z -> option (list (rop value component))) (ps : list (list Z))
  (r : registry value component) (log : list logline) : res (registry value component) * list logline :=
  match ps with
  | [] => (Ok r, log)
  | p :: rest =>
    let log := log ++ [LPlugin p] in
    match open p with
    | None => (Err, log)
    | Some regs => load_plugins open rest (rrun regs r) log
    end
  end.

(** run.go:140-161: creating and queueing the listeners, in order *)
Fixpoint make_listeners (es : list entity) (r : registry value component) (log : list logline)
  (acc : list component) : res (list component) * list logline :=
  match es with
  | [] => (Ok acc, log)
  | e :: rest =>
    let log := log ++ [LListener e] in
    let (x, r') := new KListener (e_kind e) (e_config e) r in
    match x with
    | Ok c => make_listeners rest r' log (acc ++ [c])
    | Err => (Err, log) | Panic => (Panic, log) | Diverge => (Diverge, log)
    end
  end.

(** run (72-185): Ok g means started = true and [g] is launched; Err means it
    returned false and an error.  [ui_ok]: tgzfs.New of the embedded tarball
    succeeds (true when there is no tarball), run.go:124-131. *)
Definition run (open : list Z -> option (list (rop value component))) (ui_ok : bool) (r0 : registry value component)
  (conf : config) : res launched * list logline :=
  match load_plugins open (plugins conf) r0 [] with
  | (Ok r1, log) =>
    let log := log ++ [LDatabase (database conf)] in
    let (x, r2) := new KDatabase (e_kind (database conf)) (e_config (database conf)) r1 in
    match x with
    | Ok db =>
      let log := log ++ [LDist (dist conf)] in
      let (y, r3) := new KDist (e_kind (dist conf)) (e_config (dist conf)) r2 in
      match y with
      | Ok params =>
        let log := log ++ [LApi (redact (api conf))] in
        if ui_ok then
          match make_listeners (listeners conf) r3 log [] with
          | (Ok ls, log) => (Ok {| g_db := db; g_params := params; g_listeners := ls;
                                  g_period := duration conf; g_api := api conf |}, log)
          | (Err, log) => (Err, log) | (Panic, log) => (Panic, log) | (Diverge, log) => (Diverge, log)
          end
        else (Err, log)
      | Err => (Err, log) | Panic => (Panic, log) | Diverge => (Diverge, log)
      end
    | Err => (Err, log) | Panic => (Panic, log) | Diverge => (Diverge, log)
    end
  | (Err, log) => (Err, log) | (Panic, log) => (Panic, log) | (Diverge, log) => (Diverge, log)
  end.

(** the dumper task (run.go:164-167, dump.go:52-55): time.NewTicker panics when
    the period is not positive *)
Definition dumper_start (g : launched) : res unit := if g_period g <=? 0 then Panic else Ok tt.

(** the run command (run.go:41-63): reads, loads, runs; Err when nothing was
    started.  *)
Definition run_command (decode : list Z -> option toml_config) open ui_ok (data : list Z) : res launched :=
  do conf <- load decode data; fst (run open ui_ok (rrun inits reg0) conf).
