(** What a text drawn with draw/iosevka looks like. *)
From Coq Require Import ZArith List Bool.
From Verif Require Import Base Merge Draw DrawSpec Font.
Import ListNotations.
Open Scope Z_scope.

(** the characters with a glyph: the printable ones of ASCII, and carriage return *)
Definition in_font (c : Z) : bool := (c =? 13) || ((32 <=? c) && (c <=? 126)).
(** the darkness, 0 to 255, of the pixel in column [i] and row [j] of a character's
    cell of 6 by 14 pixels, from the table of glyphs *)
Definition dark (c i j : Z) : Z :=
  match find (fun g => fst g =? c) iosevka_glyphs with
  | Some g => nth (Z.to_nat i) (nth (Z.to_nat j) (snd g) []) 0
  | None => 0
  end.
(** the same for the cells of a text; characters without a glyph take no room *)
Definition text_dark (t : list Z) (i j : Z) : Z :=
  match nth_error (filter in_font t) (Z.to_nat (i / 6)) with
  | Some c => dark c (i mod 6) j
  | None => 0
  end.
(** how the pixels of a text change the picture under them *)
Definition iosevka_shade (t : list Z) (i j : Z) (p : list Z) : list Z := over_pixel (text_dark t i j) p.

(** printable ASCII *)
Definition printable (c : Z) : Prop := 32 <= c <= 126.
(** a text without the spaces at its end *)
Fixpoint trim_end (t : list Z) : list Z :=
  match t with
  | [] => []
  | c :: t => match trim_end t with [] => if c =? 32 then [] else [c] | r => c :: r end
  end.
(** what numbers are written with: digits, the characters . + - e, and the letters
    of NaN and Inf *)
Definition numeric (c : Z) : Prop := (48 <= c <= 57) \/ In c [46; 43; 45; 101; 78; 97; 73; 110; 102].
