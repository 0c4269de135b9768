(** Reading JSON (RFC 8259), independent of the encoder: bytes are UTF-8, the text of
    characters is read by recursive descent. *)
From Coq Require Import ZArith List Bool.
Import ListNotations.
Open Scope Z_scope.

(** * UTF-8 *)
(** the characters of Unicode, and their bytes *)
Definition scalar (c : Z) : Prop := 0 <= c < 0xD800 \/ 0xE000 <= c <= 0x10FFFF.
Definition utf8_of (c : Z) : list Z :=
  if c <? 0x80 then [c]
  else if c <? 0x800 then [0xC0 + c / 64; 0x80 + c mod 64]
  else if c <? 0x10000 then [0xE0 + c / 4096; 0x80 + c / 64 mod 64; 0x80 + c mod 64]
  else [0xF0 + c / 262144; 0x80 + c / 4096 mod 64; 0x80 + c / 64 mod 64; 0x80 + c mod 64].
(** [s] is the text [l] in UTF-8 *)
Definition is_utf8 (s l : list Z) : Prop := Forall scalar l /\ s = flat_map utf8_of l.
(** how a reader shows any bytes: bytes that are not the beginning of a character are
    replaced by U+FFFD *)
Inductive shown_as : list Z -> list Z -> Prop :=
| sh_end : shown_as [] []
| sh_char c s l : scalar c -> shown_as s l -> shown_as (utf8_of c ++ s) (c :: l)
| sh_bad b s l : (forall c r, scalar c -> b :: s <> utf8_of c ++ r) -> shown_as s l -> shown_as (b :: s) (0xFFFD :: l).

(** * JSON *)
Inductive json :=
| NNull | NTrue | NFalse
| NNum (text : list Z)
| NStr (chars : list Z)
| NArr (l : list json)
| NObj (l : list (list Z * json)).

Definition blank (c : Z) : bool := (c =? 32) || (c =? 9) || (c =? 10) || (c =? 13).
Fixpoint skip (l : list Z) : list Z := match l with c :: r => if blank c then skip r else l | [] => [] end.
Definition hex_digit (c : Z) : option Z :=
  if (48 <=? c) && (c <=? 57) then Some (c - 48)
  else if (97 <=? c) && (c <=? 102) then Some (c - 87)
  else if (65 <=? c) && (c <=? 70) then Some (c - 55)
  else None.
Definition hex4 (a b c d : Z) : option Z :=
  match hex_digit a, hex_digit b, hex_digit c, hex_digit d with
  | Some a, Some b, Some c, Some d => Some (((a * 16 + b) * 16 + c) * 16 + d)
  | _, _, _, _ => None
  end.
Definition simple_escape (c : Z) : option Z :=
  if (c =? 34) || (c =? 92) || (c =? 47) then Some c
  else if c =? 98 then Some 8
  else if c =? 102 then Some 12
  else if c =? 110 then Some 10
  else if c =? 114 then Some 13
  else if c =? 116 then Some 9
  else None.
Definition add_char (c : Z) (x : option (list Z * list Z)) : option (list Z * list Z) :=
  match x with Some (s, r) => Some (c :: s, r) | None => None end.
(** the rest of a string, after its opening quotation mark *)
Fixpoint read_str (l : list Z) : option (list Z * list Z) :=
  match l with
  | [] => None
  | c :: l =>
      if c =? 34 then Some ([], l)
      else if c <? 32 then None
      else if c =? 92 then
        match l with
        | e :: l =>
            if e =? 117 then
              match l with
              | a :: b :: c :: d :: l =>
                  match hex4 a b c d with
                  | Some u =>
                      if (0xD800 <=? u) && (u <? 0xDC00) then
                        (* the first half of a pair *)
                        match l with
                        | s :: t :: a :: b :: c :: d :: l =>
                            match hex4 a b c d with
                            | Some v =>
                                if (s =? 92) && (t =? 117) && (0xDC00 <=? v) && (v <? 0xE000)
                                then add_char (0x10000 + (u - 0xD800) * 1024 + (v - 0xDC00)) (read_str l) else None
                            | None => None
                            end
                        | _ => None
                        end
                      else if (0xDC00 <=? u) && (u <? 0xE000) then None
                      else add_char u (read_str l)
                  | None => None
                  end
              | _ => None
              end
            else match simple_escape e with Some c => add_char c (read_str l) | None => None end
        | [] => None
        end
      else add_char c (read_str l)
  end.

(** numbers: - optional, 0 or digits not beginning with 0, a fraction, an exponent *)
Definition digit (c : Z) : bool := (48 <=? c) && (c <=? 57).
Fixpoint skip_digits (l : list Z) : list Z := match l with c :: r => if digit c then skip_digits r else l | [] => [] end.
Definition after_digits (l : list Z) : option (list Z) :=
  match l with c :: r => if digit c then Some (skip_digits r) else None | [] => None end.
Definition after_whole (l : list Z) : option (list Z) :=
  match l with c :: r => if c =? 48 then Some r else after_digits l | [] => None end.
Definition after_fraction (l : list Z) : option (list Z) :=
  match l with c :: r => if c =? 46 then after_digits r else Some l | [] => Some [] end.
Definition after_exponent (l : list Z) : option (list Z) :=
  match l with
  | c :: r => if (c =? 101) || (c =? 69)
              then match r with s :: r' => if (s =? 43) || (s =? 45) then after_digits r' else after_digits r | [] => None end
              else Some l
  | [] => Some []
  end.
Definition is_json_number (t : list Z) : bool :=
  let t := match t with c :: r => if c =? 45 then r else t | [] => [] end in
  match after_whole t with
  | Some t => match after_fraction t with
              | Some t => match after_exponent t with Some [] => true | _ => false end
              | None => false
              end
  | None => false
  end.
Definition number_char (c : Z) : bool := digit c || (c =? 43) || (c =? 45) || (c =? 46) || (c =? 101) || (c =? 69).
Fixpoint span_number (l : list Z) : list Z * list Z :=
  match l with
  | c :: r => if number_char c then let '(t, r) := span_number r in (c :: t, r) else ([], l)
  | [] => ([], [])
  end.
Definition read_number (l : list Z) : option (json * list Z) :=
  let '(t, r) := span_number l in if is_json_number t then Some (NNum t, r) else None.
(** the rest of a word *)
Fixpoint expect (w l : list Z) : option (list Z) :=
  match w, l with
  | [], _ => Some l
  | a :: w, b :: l => if a =? b then expect w l else None
  | _, [] => None
  end.

(** a value, the elements of an array after the first bracket or comma, the members of
    an object; [n] bounds the depth of the recursion *)
Fixpoint read_value (n : nat) (l : list Z) : option (json * list Z) :=
  match n with
  | O => None
  | S n =>
      match skip l with
      | [] => None
      | c :: r =>
          if c =? 34 then match read_str r with Some (s, r) => Some (NStr s, r) | None => None end
          else if c =? 91 then
            match skip r with
            | d :: r' => if d =? 93 then Some (NArr [], r')
                         else match read_elems n r with Some (l, r) => Some (NArr l, r) | None => None end
            | [] => None
            end
          else if c =? 123 then
            match skip r with
            | d :: r' => if d =? 125 then Some (NObj [], r')
                         else match read_members n r with Some (l, r) => Some (NObj l, r) | None => None end
            | [] => None
            end
          else if c =? 110 then match expect [117; 108; 108] r with Some r => Some (NNull, r) | None => None end
          else if c =? 116 then match expect [114; 117; 101] r with Some r => Some (NTrue, r) | None => None end
          else if c =? 102 then match expect [97; 108; 115; 101] r with Some r => Some (NFalse, r) | None => None end
          else read_number (c :: r)
      end
  end
with read_elems (n : nat) (l : list Z) : option (list json * list Z) :=
  match n with
  | O => None
  | S n =>
      match read_value n l with
      | Some (v, r) =>
          match skip r with
          | d :: r => if d =? 93 then Some ([v], r)
                      else if d =? 44 then match read_elems n r with Some (l, r) => Some (v :: l, r) | None => None end
                      else None
          | [] => None
          end
      | None => None
      end
  end
with read_members (n : nat) (l : list Z) : option (list (list Z * json) * list Z) :=
  match n with
  | O => None
  | S n =>
      match skip l with
      | c :: r =>
          if c =? 34 then
            match read_str r with
            | Some (k, r) =>
                match skip r with
                | d :: r =>
                    if d =? 58 then
                      match read_value n r with
                      | Some (v, r) =>
                          match skip r with
                          | d :: r => if d =? 125 then Some ([(k, v)], r)
                                      else if d =? 44 then match read_members n r with Some (l, r) => Some ((k, v) :: l, r) | None => None end
                                      else None
                          | [] => None
                          end
                      | None => None
                      end
                    else None
                | [] => None
                end
            | None => None
            end
          else None
      | [] => None
      end
  end.
(** a whole text: one value and blanks *)
Definition read_json (l : list Z) : option json :=
  match read_value (S (length l)) l with
  | Some (v, r) => match skip r with [] => Some v | _ => None end
  | None => None
  end.

(** * integers and bytes in JSON *)
(** the integer a number is, if it has no fraction and no exponent *)
Fixpoint nat_of (acc : Z) (l : list Z) : option Z :=
  match l with c :: r => if digit c then nat_of (acc * 10 + (c - 48)) r else None | [] => Some acc end.
Definition int_of (t : list Z) : option Z :=
  match t with
  | c :: r => if c =? 45 then option_map Z.opp (nat_of 0 r) else nat_of 0 t
  | [] => None
  end.
(** base64 (RFC 4648, section 4) *)
Definition base64_value (c : Z) : option Z :=
  if (65 <=? c) && (c <=? 90) then Some (c - 65)
  else if (97 <=? c) && (c <=? 122) then Some (c - 71)
  else if (48 <=? c) && (c <=? 57) then Some (c + 4)
  else if c =? 43 then Some 62
  else if c =? 47 then Some 63
  else None.
Fixpoint unbase64 (t : list Z) : option (list Z) :=
  match t with
  | [] => Some []
  | a :: b :: c :: d :: t =>
      match base64_value a, base64_value b with
      | Some a, Some b =>
          if (c =? 61) && (d =? 61) then
            match t with [] => if b mod 16 =? 0 then Some [a * 4 + b / 16] else None | _ => None end
          else
            match base64_value c with
            | Some c =>
                if d =? 61 then
                  match t with [] => if c mod 4 =? 0 then Some [a * 4 + b / 16; b mod 16 * 16 + c / 4] else None | _ => None end
                else
                  match base64_value d, unbase64 t with
                  | Some d, Some l => Some (a * 4 + b / 16 :: b mod 16 * 16 + c / 4 :: c mod 4 * 64 + d :: l)
                  | _, _ => None
                  end
            | None => None
            end
      | _, _ => None
      end
  | _ => None
  end.

(** the value a reader finds in the bytes of an answer *)
Definition reads_json (s : list Z) (v : json) : Prop := exists text, is_utf8 s text /\ read_json text = Some v.
