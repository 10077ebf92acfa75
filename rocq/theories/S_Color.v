(** * Vocabulary for the documented forms of colors *)
From Coq Require Import Ascii String.
From Verif Require Import Base M_Style M_Parse.
Set Implicit Arguments.
Open Scope list_scope.

(** The value of decimal digits *)
Definition decimal (ds : str) : N := fold_left (fun a c => 10 * a + (c - 48))%N ds 0%N.
(** One or more ASCII digits *)
Definition number (ds : str) : Prop := ds <> [] /\ Forall (fun c => 48 <= c <= 57)%N ds.
(** The value of a hexadecimal digit *)
Inductive nibble : char -> N -> Prop :=
| nib_digit n : (n <= 9)%N -> nibble (48 + n) n
| nib_lower n : (10 <= n <= 15)%N -> nibble (87 + n) n
| nib_upper n : (10 <= n <= 15)%N -> nibble (55 + n) n.

(** ASCII lower case *)
Definition lower (c : char) : char := if (65 <=? c)%N && (c <=? 90)%N then (c + 32)%N else c.
(** the same text but for the case of ASCII letters *)
Definition same_text (s t : str) : Prop := map lower s = map lower t.
(** simple case folding to ASCII: the Kelvin sign is a k and the long s is an s *)
Definition fold (c : char) : char := if (c =? 8490)%N then 107%N else if (c =? 383)%N then 115%N else lower c.
Definition folded (s : str) (p : string) : Prop := map fold s = lit p.

(** What a text read as a color may be *)
Inductive color_text (k : classes) : str -> Color -> Prop :=
| ct_ansi f ds : folded f "ansi(" -> number ds -> (decimal ds <= 255)%N -> color_text k (f ++ ds ++ lit ")") (AnsiValue (decimal ds))
| ct_grey f name ds : In name ["gray("; "grey("; "grayscale("; "greyscale("]%string -> folded f name -> number ds -> (decimal ds <= 23)%N ->
    color_text k (f ++ ds ++ lit ")") (AnsiValue (232 + decimal ds))
| ct_rgb f r g b w1 w2 : folded f "rgb(" -> number r -> number g -> number b ->
    Forall (fun c => rx_space k c = true) w1 -> Forall (fun c => rx_space k c = true) w2 ->
    (decimal r <= 255)%N -> (decimal g <= 255)%N -> (decimal b <= 255)%N ->
    color_text k (f ++ r ++ lit "," ++ w1 ++ g ++ lit "," ++ w2 ++ b ++ lit ")") (Rgb (decimal r) (decimal g) (decimal b))
| ct_hex3 c1 c2 c3 r g b : nibble c1 r -> nibble c2 g -> nibble c3 b -> color_text k (lit "#" ++ [c1; c2; c3]) (Rgb (17 * r) (17 * g) (17 * b))
| ct_hex4 c1 c1' c2 c3 r r' g b : nibble c1 r -> nibble c1' r' -> nibble c2 g -> nibble c3 b ->
    color_text k (lit "#" ++ [c1; c1'; c2; c3]) (Rgb (16 * r + r') (17 * g) (17 * b))
| ct_hex5 c1 c1' c2 c2' c3 r r' g g' b : nibble c1 r -> nibble c1' r' -> nibble c2 g -> nibble c2' g' -> nibble c3 b ->
    color_text k (lit "#" ++ [c1; c1'; c2; c2'; c3]) (Rgb (16 * r + r') (16 * g + g') (17 * b))
| ct_hex6 c1 c1' c2 c2' c3 c3' r r' g g' b b' : nibble c1 r -> nibble c1' r' -> nibble c2 g -> nibble c2' g' -> nibble c3 b -> nibble c3' b' ->
    color_text k (lit "#" ++ [c1; c1'; c2; c2'; c3; c3']) (Rgb (16 * r + r') (16 * g + g') (16 * b + b')).

(** The names, with what they're read as: a name which contains another one is read as what's first in the list of the code *)
Definition names : list (string * Color) :=
  [("black", AnsiValue 16); ("blue", Blue); ("cyan", Cyan); ("darkgreen", DarkGreen); ("darkmagenta", DarkMagenta); ("darkred", DarkRed);
   ("green", Green); ("grey", Grey); ("magenta", Magenta); ("red", Red); ("yellow", Yellow); ("white", AnsiValue 231)]%string.
(** A text in which a name is *)
Definition contains_name (s : str) (name : string) : Prop := exists a m b, s = a ++ m ++ b /\ folded m name.
