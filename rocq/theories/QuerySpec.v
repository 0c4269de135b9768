(** What a pattern, a query and a search mean. *)
From Coq Require Import ZArith List Bool.
From Verif Require Import Base.
Import ListNotations.
Open Scope Z_scope.

(** two characters are the same ignoring (ascii) case *)
Definition same_letter (a b : Z) : Prop :=
  a = b \/ (65 <= a <= 90 /\ b = a + 32) \/ (65 <= b <= 90 /\ a = b + 32).
(** the text is the pattern with each * (42) replaced by some text, each ? (63)
    by one character, and the other characters by themselves in either case *)
Inductive written : list Z -> list Z -> Prop :=
| wr_nil : written [] []
| wr_char c x p t : c <> 42 -> c <> 63 -> same_letter c x -> written p t -> written (c :: p) (x :: t)
| wr_any x p t : written p t -> written (63 :: p) (x :: t)
| wr_star s p t : written p t -> written (42 :: p) (s ++ t).
(** a name matches when a prefix of it is written so ("a" matches "abcd") *)
Definition matches (pat name : list Z) : Prop := exists t rest, name = t ++ rest /\ written pat t.
(** a pattern as the search uses them: no capital letters *)
Definition lowered (pat : list Z) : Prop := forall c, In c pat -> ~ (65 <= c <= 90).

(** the components of a dotted name: the only list without dots that joins to it *)
Fixpoint joined (l : list (list Z)) : list Z :=
  match l with
  | [] => []
  | [c] => c
  | c :: l => c ++ 46 :: joined l
  end.
Definition components (m : list Z) (l : list (list Z)) : Prop :=
  l <> [] /\ joined l = m /\ forall c, In c l -> ~ In 46 c.
(** a text contained in a component, ignoring case *)
Definition contains (c q : list Z) : Prop :=
  exists a b z, c = a ++ b ++ z /\ Forall2 same_letter q b.

(** the Unicode white space characters, and their encoding in UTF-8 *)
Definition white (cp : Z) : Prop :=
  9 <= cp <= 13 \/ cp = 32 \/ cp = 0x85 \/ cp = 0xA0 \/ cp = 0x1680 \/ 0x2000 <= cp <= 0x200A \/
  cp = 0x2028 \/ cp = 0x2029 \/ cp = 0x202F \/ cp = 0x205F \/ cp = 0x3000.
Definition utf8 (cp : Z) : list Z :=
  if cp <? 0x80 then [cp]
  else if cp <? 0x800 then [0xC0 + cp / 64; 0x80 + cp mod 64]
  else [0xE0 + cp / 4096; 0x80 + cp / 64 mod 64; 0x80 + cp mod 64].
Definition space (s : list Z) : Prop := exists cp, white cp /\ s = utf8 cp.
(** a word: some bytes, no space among them *)
Definition free (w : list Z) : Prop := forall a s b, space s -> w <> a ++ s ++ b.
(** the text consists of the words, in this order, and of spaces, with at least
    one space between two words *)
Inductive worded : list Z -> list (list Z) -> Prop :=
| wo_end : worded [] []
| wo_space s q ws : space s -> worded q ws -> worded (s ++ q) ws
| wo_last w : w <> [] -> free w -> worded w [w]
| wo_word w s q ws : w <> [] -> free w -> space s -> worded q ws -> worded (w ++ s ++ q) (w :: ws).
