(** Model of the texts api/server.go answers with as JSON: encoding/json's
    Encoder.Encode (escaping HTML, as json.NewEncoder does) on the values given to it.

    A value is first turned into a tree (nil slices are null, a []byte is its base64
    text, the keys of the map are sorted), then into text.  The text of a float64
    (strconv.AppendFloat with the shortest precision) is a parameter, FloatText.v is it.  Control
    characters other than tab, newline and carriage return are \u00xx (Go 1.22 writes
    two of them, backspace and form feed, as \b and \f). *)
From Coq Require Import ZArith List Bool SpecFloat String.
From Verif Require Import Base Convert Float Merge Server.
Import ListNotations.
Open Scope Z_scope.
Open Scope list_scope.

(** unicode/utf8 DecodeRuneInString on bytes that begin with one of 0x80 or more: the
    character and its size; (0xFFFD, 1) if there is none *)
Definition cont (c : Z) : bool := (0x80 <=? c) && (c <=? 0xBF).
Definition rune_error : Z := 0xFFFD.
Definition rune (s : list Z) : Z * nat :=
  match s with
  | c :: c1 :: r =>
      if (0xC2 <=? c) && (c <=? 0xDF) then
        if cont c1 then (Z.lor (Z.shiftl (c - 0xC0) 6) (c1 - 0x80), 2%nat) else (rune_error, 1%nat)
      else
        match r with
        | c2 :: r =>
            if (0xE0 <=? c) && (c <=? 0xEF) then
              let lo := if c =? 0xE0 then 0xA0 else 0x80 in
              let hi := if c =? 0xED then 0x9F else 0xBF in
              if (lo <=? c1) && (c1 <=? hi) && cont c2
              then (Z.lor (Z.lor (Z.shiftl (c - 0xE0) 12) (Z.shiftl (c1 - 0x80) 6)) (c2 - 0x80), 3%nat) else (rune_error, 1%nat)
            else
              match r with
              | c3 :: _ =>
                  if (0xF0 <=? c) && (c <=? 0xF4) then
                    let lo := if c =? 0xF0 then 0x90 else 0x80 in
                    let hi := if c =? 0xF4 then 0x8F else 0xBF in
                    if (lo <=? c1) && (c1 <=? hi) && cont c2 && cont c3
                    then (Z.lor (Z.lor (Z.shiftl (c - 0xF0) 18) (Z.shiftl (c1 - 0x80) 12)) (Z.lor (Z.shiftl (c2 - 0x80) 6) (c3 - 0x80)), 4%nat)
                    else (rune_error, 1%nat)
                  else (rune_error, 1%nat)
              | [] => (rune_error, 1%nat)
              end
        | [] => (rune_error, 1%nat)
        end
  | _ => (rune_error, 1%nat)
  end.

(** encoding/json's hex, htmlSafeSet *)
Definition hex (n : Z) : Z := if n <? 10 then 48 + n else 87 + n.
Definition html_safe (b : Z) : bool :=
  (32 <=? b) && negb ((b =? 34) || (b =? 38) || (b =? 60) || (b =? 62) || (b =? 92)).
(** encodeState.string: one byte below 0x80 *)
Definition escape (b : Z) : list Z :=
  if html_safe b then [b]
  else if (b =? 92) || (b =? 34) then [92; b]
  else if b =? 10 then [92; 110]
  else if b =? 13 then [92; 114]
  else if b =? 9 then [92; 116]
  else [92; 117; 48; 48; hex (Z.shiftr b 4); hex (Z.land b 15)].
(** its loop; the fuel is the number of bytes left *)
Fixpoint quote_ (fuel : nat) (s : list Z) : list Z :=
  match fuel, s with
  | S fuel, b :: s' =>
      if b <? 0x80 then escape b ++ quote_ fuel s'
      else
        let '(c, size) := rune s in
        if (c =? rune_error) && (Nat.eqb size 1) then [92; 117; 102; 102; 102; 100] ++ quote_ fuel (skipn size s)
        else if (c =? 0x2028) || (c =? 0x2029) then [92; 117; 50; 48; 50; hex (Z.land c 15)] ++ quote_ fuel (skipn size s)
        else firstn size s ++ quote_ fuel (skipn size s)
  | _, _ => []
  end.
Definition quote (s : list Z) : list Z := 34 :: quote_ (List.length s) s ++ [34].

(** the values that are encoded *)
Inductive jvalue :=
| JNull
| JNum (text : list Z)
| JStr (s : list Z)
| JArr (l : list jvalue)
| JObj (l : list (list Z * jvalue)).
(** encoding/json's encoders of slices, maps and structs *)
Fixpoint encode (v : jvalue) : list Z :=
  match v with
  | JNull => bytes_of "null"
  | JNum t => t
  | JStr s => quote s
  | JArr l =>
      91 :: (fix elems (l : list jvalue) : list Z :=
               match l with
               | [] => []
               | [v] => encode v
               | v :: l => encode v ++ 44 :: elems l
               end) l ++ [93]
  | JObj l =>
      123 :: (fix members (l : list (list Z * jvalue)) : list Z :=
                match l with
                | [] => []
                | [(k, v)] => quote k ++ 58 :: encode v
                | (k, v) :: l => quote k ++ 58 :: encode v ++ 44 :: members l
                end) l ++ [125]
  end.

(** encoding/base64's StdEncoding *)
Definition base64_char (n : Z) : Z :=
  if n <? 26 then 65 + n else if n <? 52 then 71 + n else if n <? 62 then n - 4 else if n =? 62 then 43 else 47.
Fixpoint base64 (s : list Z) : list Z :=
  match s with
  | a :: b :: c :: s =>
      let v := Z.lor (Z.lor (Z.shiftl a 16) (Z.shiftl b 8)) c in
      [base64_char (Z.land (Z.shiftr v 18) 63); base64_char (Z.land (Z.shiftr v 12) 63); base64_char (Z.land (Z.shiftr v 6) 63); base64_char (Z.land v 63)] ++ base64 s
  | [a; b] =>
      let v := Z.lor (Z.shiftl a 16) (Z.shiftl b 8) in
      [base64_char (Z.land (Z.shiftr v 18) 63); base64_char (Z.land (Z.shiftr v 12) 63); base64_char (Z.land (Z.shiftr v 6) 63); 61]
  | [a] =>
      let v := Z.shiftl a 16 in
      [base64_char (Z.land (Z.shiftr v 18) 63); base64_char (Z.land (Z.shiftr v 12) 63); 61; 61]
  | [] => []
  end.

Definition jint (n : Z) : jvalue := JNum (itoa n).
(** draw/common.go:19-23 Column *)
Definition column_json (num : spec_float -> list Z) (c : column) : jvalue :=
  JObj [(bytes_of "X", jint (col_x c)); (bytes_of "W", jint (col_w c));
        (bytes_of "Data", JArr (map (fun b => JNum (num (fdecode b))) (col_data c))); (bytes_of "ObsSec", JNum (num (col_rate c)))].
(** server.go:238-251: nil slices for no columns and for an earliest record without
    bytes *)
Definition graph_json (num : spec_float -> list Z) (metric : list Z) (cols : list column) (earliest : option (list Z)) (p : mparams) : jvalue :=
  JObj [(bytes_of "columns", match cols with [] => JNull | _ => JArr (map (column_json num) cols) end);
        (bytes_of "duration", jint (mp_dur p));
        (bytes_of "earliest", match earliest with Some (b :: l) => JStr (base64 (b :: l)) | _ => JNull end);
        (bytes_of "height", jint (mp_height p));
        (bytes_of "metric", JStr metric);
        (bytes_of "now", jint (mp_now p));
        (bytes_of "padding", jint (mp_padding p));
        (bytes_of "width", jint (mp_width p))].
(** server.go:239-251, 289-290: Encode writes a newline after the value *)
Definition names_text (l : list (list Z)) : list Z := encode (JArr (map JStr l)) ++ [10].
Definition graph_text num metric cols earliest p : list Z := encode (graph_json num metric cols earliest p) ++ [10].
