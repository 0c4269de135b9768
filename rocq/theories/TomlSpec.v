(** The part of TOML that the initial configuration uses, written down independently
    of the decoder the program links (github.com/BurntSushi/toml, not modelled):
    comments, tables, arrays of tables, bare keys, strings without escapes,
    integers, floats with a zero fraction, booleans, arrays.  [toml_read] reads a
    document; [toml_fields] fills the fields of load.go:14-34 from it. *)
From Coq Require Import ZArith List Bool String.
From Verif Require Import Base Maps Typeassert Config Server.
Import ListNotations.
Open Scope Z_scope.
Open Scope list_scope.

Inductive token := TNl | TOpen | TClose | TEq | TComma | TDot | TWord (w : list Z) | TStr (s : list Z).

Definition is_word (c : Z) : bool :=
  ((48 <=? c) && (c <=? 57)) || ((65 <=? c) && (c <=? 90)) || ((97 <=? c) && (c <=? 122)) || (c =? 95) || (c =? 45).
(** what the tokenizer is inside of *)
Inductive mode := MNone | MComment | MWord (w : list Z) | MStr (s : list Z).
Definition flush (m : mode) : list token := match m with MWord w => [TWord (rev w)] | _ => [] end.
Definition simple (c : Z) : option (list token) :=
  if c =? 10 then Some [TNl] else if c =? 91 then Some [TOpen] else if c =? 93 then Some [TClose]
  else if c =? 61 then Some [TEq] else if c =? 44 then Some [TComma] else if c =? 46 then Some [TDot]
  else if (c =? 32) || (c =? 9) || (c =? 13) then Some [] else None.
Fixpoint tokens (s : list Z) (m : mode) : option (list token) :=
  match s with
  | [] => match m with MStr _ => None | _ => Some (flush m) end
  | c :: s =>
    match m with
    | MComment => if c =? 10 then option_map (cons TNl) (tokens s MNone) else tokens s MComment
    | MStr w => if c =? 34 then option_map (cons (TStr (rev w))) (tokens s MNone)
                else if (c =? 10) || (c =? 92) then None else tokens s (MStr (c :: w))
    | _ =>
      if is_word c then tokens s (match m with MWord w => MWord (c :: w) | _ => MWord [c] end)
      else if c =? 34 then option_map (app (flush m)) (tokens s (MStr []))
      else if c =? 35 then option_map (app (flush m)) (tokens s MComment)
      else match simple c with
           | None => None
           | Some t => option_map (app (flush m ++ t)) (tokens s MNone)
           end
    end
  end.

(** a decimal number of at least one digit *)
Fixpoint number (w : list Z) (acc : Z) : option Z :=
  match w with
  | [] => Some acc
  | c :: r => if (48 <=? c) && (c <=? 57) then number r (10 * acc + (c - 48)) else None
  end.
Definition decimal (w : list Z) : option Z := match w with [] => None | _ => number w 0 end.
Definition word_value (w : list Z) : option value :=
  if beqb w (bytes_of "true") then Some (VBool true)
  else if beqb w (bytes_of "false") then Some (VBool false)
  else option_map VInt64 (decimal w).

(** the bits of the float64 [n], 0 <= n < 2^53 *)
Definition float_bits (n : Z) : Z :=
  if n =? 0 then 0 else (Z.log2 n + 1023) * 2 ^ 52 + (n * 2 ^ (52 - Z.log2 n) - 2 ^ 52).
(** a value and the tokens after it *)
Fixpoint read_value (fuel : nat) (ts : list token) : option (value * list token) :=
  match fuel with
  | O => None
  | S fuel =>
    match ts with
    | TStr s :: ts => Some (VStr s, ts)
    | TWord a :: TDot :: TWord b :: ts =>
        match decimal a, decimal b with
        | Some x, Some 0 => Some (VFloat (float_bits x), ts)
        | _, _ => None
        end
    | TWord a :: ts => option_map (fun v => (v, ts)) (word_value a)
    | TOpen :: ts => option_map (fun p => (VList (fst p), snd p)) (read_array fuel ts)
    | _ => None
    end
  end
with read_array (fuel : nat) (ts : list token) : option (list value * list token) :=
  match fuel with
  | O => None
  | S fuel =>
    match ts with
    | TClose :: ts => Some ([], ts)
    | TNl :: ts => read_array fuel ts
    | TComma :: ts => read_array fuel ts
    | _ => match read_value fuel ts with
           | Some (v, ts) => option_map (fun p => (v :: fst p, snd p)) (read_array fuel ts)
           | None => None
           end
    end
  end.

(** the table at a path is changed; an array of tables stands for its last one *)
Definition mset (k : list Z) (v : value) (m : list (list Z * value)) : list (list Z * value) :=
  if existsb (fun x => beqb k (fst x)) m then map (fun x => if beqb k (fst x) then (k, v) else x) m else m ++ [(k, v)].
Fixpoint set_at (path : list (list Z)) (new : option value -> option value) (m : list (list Z * value))
  : option (list (list Z * value)) :=
  match path with
  | [] => None
  | [k] => option_map (fun v => mset k v m) (new (mget beqb k m))
  | k :: rest =>
    match mget beqb k m with
    | None => option_map (fun m' => mset k (VMap m') m) (set_at rest new [])
    | Some (VMap m1) => option_map (fun m' => mset k (VMap m') m) (set_at rest new m1)
    | Some (VList l) =>
      match rev l with
      | VMap m1 :: before => option_map (fun m' => mset k (VList (rev before ++ [VMap m'])) m) (set_at rest new m1)
      | _ => None
      end
    | _ => None
    end
  end.
Definition open_table (o : option value) : option value :=
  match o with None => Some (VMap []) | Some (VMap m) => Some (VMap m) | _ => None end.
Definition add_table (o : option value) : option value :=
  match o with None => Some (VList [VMap []]) | Some (VList l) => Some (VList (l ++ [VMap []])) | _ => None end.
Definition fresh_key (v : value) (o : option value) : option value := match o with None => Some v | Some _ => None end.

Fixpoint read_path (fuel : nat) (ts : list token) : option (list (list Z) * list token) :=
  match fuel, ts with
  | S fuel, TWord w :: TDot :: ts => option_map (fun p => (w :: fst p, snd p)) (read_path fuel ts)
  | S _, TWord w :: ts => Some ([w], ts)
  | _, _ => None
  end.
Definition line_end (ts : list token) : option (list token) :=
  match ts with [] => Some [] | TNl :: ts => Some ts | _ => None end.
Fixpoint read_doc (fuel : nat) (ts : list token) (table : list (list Z)) (m : list (list Z * value))
  : option (list (list Z * value)) :=
  match fuel with
  | O => None
  | S fuel =>
    match ts with
    | [] => Some m
    | TNl :: ts => read_doc fuel ts table m
    | TOpen :: TOpen :: ts =>
        match read_path fuel ts with
        | Some (p, TClose :: TClose :: ts) =>
          match line_end ts, set_at p add_table m with
          | Some ts, Some m => read_doc fuel ts p m
          | _, _ => None
          end
        | _ => None
        end
    | TOpen :: ts =>
        match read_path fuel ts with
        | Some (p, TClose :: ts) =>
          match line_end ts, set_at p open_table m with
          | Some ts, Some m => read_doc fuel ts p m
          | _, _ => None
          end
        | _ => None
        end
    | TWord k :: TEq :: ts =>
        match read_value fuel ts with
        | Some (v, ts) =>
          match line_end ts, set_at (table ++ [k]) (fresh_key v) m with
          | Some ts, Some m => read_doc fuel ts table m
          | _, _ => None
          end
        | None => None
        end
    | _ => None
    end
  end.
Definition toml_read (s : list Z) : option (list (list Z * value)) :=
  match tokens s MNone with Some ts => read_doc (S (List.length ts)) ts [] [] | None => None end.

(** *** the fields *)
Definition field (k : string) (m : list (list Z * value)) : option value := mget beqb (bytes_of k) m.
Definition as_table (o : option value) : option (list (list Z * value)) :=
  match o with None => Some [] | Some (VMap m) => Some m | _ => None end.
Definition as_string (o : option value) : option (list Z) := match o with None => Some [] | Some (VStr s) => Some s | _ => None end.
Fixpoint as_strings (l : list value) : option (list (list Z)) :=
  match l with
  | [] => Some []
  | VStr s :: l => option_map (cons s) (as_strings l)
  | _ => None
  end.
Definition as_string_list (o : option value) : option (list (list Z)) :=
  match o with None => Some [] | Some (VList l) => as_strings l | _ => None end.
Fixpoint as_lists (m : list (list Z * value)) : option (list (list Z * list value)) :=
  match m with
  | [] => Some []
  | (k, VList l) :: m => option_map (cons (k, l)) (as_lists m)
  | _ => None
  end.
(** a duration of the form <digits><unit>, in nanoseconds *)
Definition as_duration (o : option value) : option Z :=
  match o with
  | None => Some 0
  | Some (VStr s) =>
    match rev s with
    | u :: ds =>
      match decimal (rev ds) with
      | Some n => if u =? 104 then Some (n * 3600 * 10 ^ 9) else if u =? 109 then Some (n * 60 * 10 ^ 9)
                  else if u =? 115 then Some (n * 10 ^ 9) else None
      | None => None
      end
    | [] => None
    end
  | _ => None
  end.
Definition obind {A B} (o : option A) (f : A -> option B) : option B := match o with Some a => f a | None => None end.
Definition toml_fields (d : list (list Z * value)) : option toml_config :=
  obind (as_table (field "main" d)) (fun main =>
  obind (as_duration (field "duration" main)) (fun dur =>
  obind (as_string_list (field "plugins" main)) (fun plug =>
  obind (obind (as_table (field "listeners" d)) as_lists) (fun lis =>
  obind (as_table (field "database" d)) (fun db =>
  obind (as_table (field "dist" d)) (fun ds =>
  obind (as_table (field "api" d)) (fun api =>
  obind (as_string (field "address" api)) (fun addr =>
  obind (as_string (field "origin" api)) (fun orig =>
  obind (as_table (field "tls" api)) (fun tls =>
  obind (as_string (field "key" tls)) (fun key =>
  obind (as_string (field "cert" tls)) (fun cert =>
  obind (as_table (field "security" api)) (fun sec =>
  obind (as_string (field "username" sec)) (fun user =>
  obind (as_string (field "password" sec)) (fun pass =>
  Some {| t_duration := dur; t_plugins := plug; t_listeners := lis; t_database := db; t_dist := ds;
          t_address := addr; t_origin := orig; t_key := key; t_cert := cert; t_username := user; t_password := pass |}))))))))))))))).
Definition toml_decode (s : list Z) : option toml_config := obind (toml_read s) toml_fields.
