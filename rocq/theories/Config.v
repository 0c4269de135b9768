(** Model of /repo/config (load.go, config.go, common.go). *)
From Coq Require Import ZArith List Bool Permutation.
From Verif Require Import Base Maps Typeassert.
Import ListNotations.
Open Scope Z_scope.

(** config.go:47-71 *)
Record api_config := { address : list Z; origin : list Z; tls_key : list Z; tls_cert : list Z;
  username : list Z; password : list Z }.
(** config.go:40-43 *)
Record entity := { e_kind : list Z; e_config : value }.
(** config.go:14-23, 33-36; [from] (the decoded form, for WriteTo) is left out *)
Record config := { duration : Z; plugins : list (list Z); listeners : list entity;
  database : entity; dist : entity; api : api_config }.

(** load.go:14-34: what toml.Unmarshal fills in.  The maps are association
    lists with distinct keys, in the order Go's range happens to visit them
    (the theorems hold for every order).  main.duration is a time.Duration in
    nanoseconds (textDuration, common.go:14-22). *)
Record toml_config := { t_duration : Z; t_plugins : list (list Z);
  t_listeners : list (list Z * list value);
  t_database : list (list Z * value); t_dist : list (list Z * value);
  t_address : list Z; t_origin : list Z; t_key : list Z; t_cert : list Z;
  t_username : list Z; t_password : list Z }.

Definition v_entity (kv : list Z * value) : entity := {| e_kind := fst kv; e_config := snd kv |}.

(** load.go:63-77: for .. range with break: the first pair visited *)
Definition first_entity (m : list (list Z * value)) : entity :=
  match m with
  | kv :: _ => v_entity kv
  | [] => {| e_kind := []; e_config := VNil |}
  end.

(** load.go:79-86 *)
Definition listener_entities (m : list (list Z * list value)) : list entity :=
  flat_map (fun kc => map (fun c => {| e_kind := fst kc; e_config := c |}) (snd kc)) m.

(** Load (load.go:10-89).  [decode] is toml.Unmarshal into the struct, nil error
    as Some: syntax, types of the fixed fields and time.ParseDuration of the
    duration are decided there. *)
Definition load (decode : list Z -> option toml_config) (data : list Z) : res config :=
  match decode data with
  | None => Err
  | Some t =>
    if negb (len (t_database t) =? 1) then Err else
    if negb (len (t_dist t) =? 1) then Err else
    Ok {| duration := t_duration t; plugins := t_plugins t;
          listeners := listener_entities (t_listeners t);
          database := first_entity (t_database t);
          dist := first_entity (t_dist t);
          api := {| address := t_address t; origin := t_origin t; tls_key := t_key t; tls_cert := t_cert t;
                    username := t_username t; password := t_password t |} |}
  end.

(** Redact (config.go:54-60) *)
Definition s_redacted : list Z := [114;101;100;97;99;116;101;100].
Definition redact (a : api_config) : api_config :=
  {| address := address a; origin := origin a; tls_key := s_redacted; tls_cert := s_redacted;
     username := s_redacted; password := s_redacted |}.
