(** * Vocabulary for the properties of the texts of styles *)
From Coq Require Import String.
From Verif Require Import Base M_Style M_Parse.
Set Implicit Arguments.

(** What's known of the Unicode classes: their ASCII part *)
Definition ascii_letter (c : char) : Prop := (97 <= c <= 122)%N \/ (65 <= c <= 90)%N.
Definition ascii_digit (c : char) : Prop := (48 <= c <= 57)%N.
Definition ascii_space (c : char) : Prop := (9 <= c <= 13)%N \/ c = 32%N.
Record ascii_classes (k : classes) : Prop := {
  ascii_space_class : forall c, (c < 128)%N -> rx_space k c = true <-> ascii_space c;
  ascii_digit_class : forall c, (c < 128)%N -> rx_digit k c = true <-> ascii_digit c;
  ascii_word_class : forall c, (c < 128)%N -> rx_word k c = true <-> ascii_letter c \/ ascii_digit c \/ c = 95%N
}.

(** Colors which can be built in Rust: the components are [u8] *)
Definition valid_color (c : Color) : Prop :=
  match c with
  | Rgb r g b => (r <= 255)%N /\ (g <= 255)%N /\ (b <= 255)%N
  | AnsiValue n => (n <= 255)%N
  | _ => True
  end.
Definition valid_ocolor (o : option Color) : Prop := match o with Some c => valid_color c | None => True end.
Definition valid_cs (cs : CStyle) : Prop := valid_ocolor (fg cs) /\ valid_ocolor (bg cs).

(** The colors whose printed text isn't read as themselves *)
Definition lost_colors : list Color := [Reset; Black; DarkGrey; DarkYellow; DarkBlue; DarkCyan; White].
(** What they're read as; nothing is printed for [Reset] *)
Definition reread_color (c : Color) : option Color :=
  match c with
  | Reset => None
  | Black => Some (AnsiValue 16)
  | DarkGrey => Some Grey
  | DarkYellow => Some Yellow
  | DarkBlue => Some Blue
  | DarkCyan => Some Cyan
  | White => Some (AnsiValue 231)
  | _ => Some c
  end.
Definition reread_ocolor (o : option Color) : option Color :=
  match o with Some c => reread_color c | None => None end.

(** The eight attributes which are printed *)
Definition printed_attributes : list Attribute :=
  [Bold; Dim; Italic; Underlined; Reverse; CrossedOut; Encircled; OverLined].
(** Their bits: 2, 3, 4, 5, 12, 14, 25, 26 *)
Definition printed_bits : N := 100683836.

(** What a printed compound style is read as: the underline color and the other attributes are lost, as is [Reset];
    when the foreground is [Reset], the background is taken for it. *)
Definition reread_cs (cs : CStyle) : CStyle :=
  match fg cs with
  | Some Reset => mkCS (reread_ocolor (bg cs)) None None (N.land (attrs cs) printed_bits)
  | _ => mkCS (reread_ocolor (fg cs)) (reread_ocolor (bg cs)) None (N.land (attrs cs) printed_bits)
  end.

(** The compound styles which are read back *)
Record faithful_cs (cs : CStyle) : Prop := {
  ff_fg : forall c, fg cs = Some c -> ~ In c lost_colors;
  ff_bg : forall c, bg cs = Some c -> ~ In c lost_colors;
  ff_underline : underline cs = None;
  ff_attrs : forall i, N.testbit (attrs cs) i = true -> In i (map attr_bit printed_attributes)
}.

(** A margin is read back up to 65535, and is 0 above *)
Definition reread_margin (m : nat) : nat := if (N.of_nat m <? 65536)%N then m else 0.
Definition reread_ls (ls : LStyle) : LStyle :=
  mkLS (reread_cs (ls_cs ls)) (ls_align ls) (reread_margin (left_margin ls)) (reread_margin (right_margin ls)).
Definition faithful_ls (ls : LStyle) : Prop :=
  faithful_cs (ls_cs ls) /\ (N.of_nat (left_margin ls) < 65536)%N /\ (N.of_nat (right_margin ls) < 65536)%N.

(** The chars which are read back as chars: no space, parenthesis or ASCII digit *)
Definition printable (k : classes) (c : char) : Prop :=
  rx_space k c = false /\ c <> 40%N /\ c <> 41%N /\ ~ ascii_digit c.
Definition reread_char (k : classes) (d c : char) : char :=
  if rx_space k c || (c =? 40)%N || (c =? 41)%N || ((48 <=? c)%N && (c <=? 57)%N) then d else c.
Definition reread_sc (k : classes) (d : char) (sc : StyledChar) : StyledChar :=
  let cs := reread_cs (sc_style sc) in
  let c := reread_char k d (sc_char sc) in
  mkSC cs c (cs, c).
(** The cached styled char is the one of the fields (it isn't after [blend_with]) *)
Definition fresh_cache (sc : StyledChar) : Prop := sc_cache sc = (sc_style sc, sc_char sc).

(** What a token is read as when it's printed among others; [None]: nothing is printed *)
Definition reread_token (t : StyleToken) : option StyleToken :=
  match t with
  | TColor c => option_map TColor (reread_color c)
  | TAlign Unspecified => None
  | _ => Some t
  end.
(** The tokens which are pushed by styles, lines styles and styled chars, except for special chars *)
Definition ok_token (k : classes) (t : StyleToken) : Prop :=
  match t with
  | TChar c => printable k c
  | TColor c => valid_color c
  | TAttribute a => In a printed_attributes
  | TDimension n => (n <= 65535)%N
  | _ => True
  end.
(** The values which are there *)
Fixpoint somes {A} (l : list (option A)) : list A :=
  match l with
  | [] => []
  | Some a :: r => a :: somes r
  | None :: r => somes r
  end.

(** What the text of an attribute is read as: some are taken for their opposite, and some aren't read *)
Definition reread_attribute (a : Attribute) : option Attribute :=
  match a with
  | Bold | Dim | Italic | Underlined | Reverse | CrossedOut | Encircled | OverLined
  | SlowBlink | RapidBlink => Some a
  | NoBold => Some Bold | NoItalic => Some Italic | NoReverse => Some Reverse | NotCrossedOut => Some CrossedOut
  | NotOverLined => Some OverLined | NotFramedOrEncircled => Some Encircled
  | _ => None
  end.
