(** * Model of src/parse/*.rs: colors, attributes, alignments, style tokens, compound styles, line styles and
    styled chars read from texts and printed

    The regular expressions are modelled one by one, with matchers written for them. The crate regex isn't
    modelled; what's taken from its documentation: [\s], [\d] and [\w] are Unicode classes, given by the record
    [classes]; [$] is the end of the text; with the flag [i] the letter k also matches the Kelvin sign and the letter
    s the long s (simple case folding). The errors don't carry their text. *)
From Coq Require Import Ascii String.
From Verif Require Import Base M_Style.
Set Implicit Arguments.
Open Scope list_scope.

(** The chars of an ASCII literal *)
Definition lit (s : string) : str := map N_of_ascii (list_ascii_of_string s).

Inductive result (A E : Type) : Type := Ok (a : A) | Err (e : E).
Arguments Ok {A E} a.
Arguments Err {A E} e.

(** The Unicode classes of the crate regex: White_Space; letters, marks, decimal numbers, connectors, joiners; Nd *)
Record classes := mkClasses { rx_space : char -> bool; rx_word : char -> bool; rx_digit : char -> bool }.

Definition is_ascii_digit (c : char) : bool := (48 <=? c)%N && (c <=? 57)%N.
Definition is_lower (c : char) : bool := (97 <=? c)%N && (c <=? 122)%N.

(** ** Regular expressions *)

(** Does [c] match the char [p] (in lower case) of a pattern with the flag [i]? *)
Definition ci (p c : char) : bool :=
  (c =? p)%N || (is_lower p && (c + 32 =? p)%N) || ((p =? 107)%N && (c =? 8490)%N) || ((p =? 115)%N && (c =? 383)%N).

(** A literal at the start of a text: what follows it *)
Fixpoint ci_prefix (p s : str) : option str :=
  match p, s with
  | [], _ => Some s
  | _ :: _, [] => None
  | a :: p', c :: s' => if ci a c then ci_prefix p' s' else None
  end.
Definition is_some {A} (o : option A) : bool := match o with Some _ => true | None => false end.
(** A literal somewhere in a text *)
Fixpoint ci_contains (p s : str) : bool :=
  is_some (ci_prefix p s) || match s with [] => false | _ :: r => ci_contains p r end.

(** The longest start of a text in a class, and what follows *)
Fixpoint span (f : char -> bool) (s : str) : str * str :=
  match s with
  | [] => ([], [])
  | c :: r => if f c then let (a, b) := span f r in (c :: a, b) else ([], s)
  end.
Definition is_nil {A} (l : list A) : bool := match l with [] => true | _ => false end.
(** [[class]+]: as what's looked for after it is never in the class, the longest start is the only candidate *)
Definition plus (f : char -> bool) (s : str) : option (str * str) :=
  let (a, b) := span f s in if is_nil a then None else Some (a, b).
(** one char *)
Definition one (c : char) (s : str) : option str :=
  match s with d :: r => if (c =? d)%N then Some r else None | [] => None end.

Definition obind {A B} (o : option A) (f : A -> option B) : option B :=
  match o with Some a => f a | None => None end.
(** the closing parenthesis and the end of the text, after [v] *)
Definition closed {A} (s : str) (v : A) : option A :=
  obind (one 41%N s) (fun r => if is_nil r then Some v else None).

(** the digits of [name\((\d+)\)$], after the start of the text *)
Definition rx_call (k : classes) (name s : str) : option str :=
  obind (ci_prefix name s) (fun r => obind (plus (rx_digit k) r) (fun p => closed (snd p) (fst p))).
Definition or_else {A} (a b : option A) : option A := match a with Some _ => a | None => b end.
(** [^ansi\((?<value>\d+)\)$]i, src/parse/parse_color.rs:60 *)
Definition rx_ansi (k : classes) (s : str) : option str := rx_call k (lit "ansi(") s.
(** [^gr[ae]y(?:scale)?\((?<level>\d+)\)$]i, src/parse/parse_color.rs:64 *)
Definition rx_grey (k : classes) (s : str) : option str :=
  or_else (rx_call k (lit "gray(") s) (or_else (rx_call k (lit "grey(") s)
    (or_else (rx_call k (lit "grayscale(") s) (rx_call k (lit "greyscale(") s))).
(** [,\s*(\d+)] *)
Definition rx_next (k : classes) (s : str) : option (str * str) :=
  obind (one 44%N s) (fun r => plus (rx_digit k) (snd (span (rx_space k) r))).
(** [^rgb\((?<r>\d+),\s*(?<g>\d+),\s*(?<b>\d+)\)$]i, src/parse/parse_color.rs:71 *)
Definition rx_rgb (k : classes) (s : str) : option (str * str * str) :=
  obind (ci_prefix (lit "rgb(") s) (fun s1 =>
  obind (plus (rx_digit k) s1) (fun p1 =>
  obind (rx_next k (snd p1)) (fun p2 =>
  obind (rx_next k (snd p2)) (fun p3 => closed (snd p3) (fst p1, fst p2, fst p3))))).
(** [[\da-f]]i *)
Definition rx_hexdigit (k : classes) (c : char) : bool :=
  rx_digit k c || ((97 <=? c)%N && (c <=? 102)%N) || ((65 <=? c)%N && (c <=? 70)%N).
(** [^#(?<r>[\da-f]{1,2})(?<g>[\da-f]{1,2})(?<b>[\da-f]{1,2})$]i, src/parse/parse_color.rs:77. The first groups are
    as long as possible. *)
Definition rx_hex (k : classes) (s : str) : option (str * str * str) :=
  obind (one 35%N s) (fun r =>
    if forallb (rx_hexdigit k) r then
      match r with
      | [a; b; c] => Some ([a], [b], [c])
      | [a; a'; b; c] => Some ([a; a'], [b], [c])
      | [a; a'; b; b'; c] => Some ([a; a'], [b; b'], [c])
      | [a; a'; b; b'; c; c'] => Some ([a; a'], [b; b'], [c; c'])
      | _ => None
      end
    else None).

(** ** Numbers *)

(** The value of decimal digits, after [acc] *)
Fixpoint dec_value (acc : N) (s : str) : option N :=
  match s with
  | [] => Some acc
  | c :: r => if is_ascii_digit c then dec_value (acc * 10 + (c - 48)) r else None
  end.
Definition at_most (max : N) (o : option N) : option N :=
  obind o (fun n => if (n <=? max)%N then Some n else None).
(** [str::parse] for an unsigned integer type: an optional plus, ASCII digits (at least one), no overflow *)
Definition parse_uint (max : N) (s : str) : option N :=
  match s with
  | [] => None
  | c :: r => at_most max (if (c =? 43)%N && negb (is_nil r) then dec_value 0 r else dec_value 0 s)
  end.
Definition parse_u8 : str -> option N := parse_uint 255.
Definition parse_u16 : str -> option N := parse_uint 65535.

(** [u8::from_str_radix(s, 16)] of one or two chars in [[\da-f]]i *)
Definition hex_digit (c : char) : option N :=
  if is_ascii_digit c then Some (c - 48)%N
  else if (97 <=? c)%N && (c <=? 102)%N then Some (c - 87)%N
  else if (65 <=? c)%N && (c <=? 70)%N then Some (c - 55)%N
  else None.
Fixpoint hex_value (acc : N) (s : str) : option N :=
  match s with
  | [] => Some acc
  | c :: r => obind (hex_digit c) (fun d => hex_value (acc * 16 + d) r)
  end.
(** src/parse/parse_color.rs:52-58; [s.len()] is a number of bytes *)
Definition hex (s : str) : option N :=
  if blen s =? 1 then hex_value 0 (s ++ s) else hex_value 0 s.

(** [Display] of an unsigned integer *)
Fixpoint dec_aux (fuel : nat) (n : N) (acc : str) : str :=
  match fuel with
  | 0 => acc
  | S f => if (n <? 10)%N then (48 + n)%N :: acc else dec_aux f (n / 10) ((48 + n mod 10)%N :: acc)
  end.
Definition dec (n : N) : str := dec_aux (S (N.to_nat (N.log2 n))) n [].

(** ** Colors *)

(** src/parse/parse_color.rs:12-18 *)
Inductive ParseColorError := Unrecognized | InvalidGreyLevel (level : N).

(** src/parse/parse_color.rs:20-42 *)
Definition write_color (c : Color) : str :=
  match c with
  | Reset => []
  | Black => lit "Black"
  | DarkGrey => lit "DarkGrey"
  | Red => lit "Red"
  | DarkRed => lit "DarkRed"
  | Green => lit "Green"
  | DarkGreen => lit "DarkGreen"
  | Yellow => lit "Yellow"
  | DarkYellow => lit "DarkYellow"
  | Blue => lit "Blue"
  | DarkBlue => lit "DarkBlue"
  | Magenta => lit "Magenta"
  | DarkMagenta => lit "DarkMagenta"
  | Cyan => lit "Cyan"
  | DarkCyan => lit "DarkCyan"
  | White => lit "White"
  | Grey => lit "Grey"
  | Rgb r g b => lit "rgb(" ++ dec r ++ lit ", " ++ dec g ++ lit ", " ++ dec b ++ lit ")"
  | AnsiValue code => lit "ansi(" ++ dec code ++ lit ")"
  end.

(** The names looked for in a text, in order: src/parse/parse_color.rs:83-97 *)
Definition color_names : list (str * Color) :=
  [ (lit "black", AnsiValue 16); (lit "blue", Blue); (lit "cyan", Cyan); (lit "darkblue", DarkBlue);
    (lit "darkcyan", DarkCyan); (lit "darkgreen", DarkGreen); (lit "darkmagenta", DarkMagenta);
    (lit "darkred", DarkRed); (lit "green", Green); (lit "grey", Grey); (lit "magenta", Magenta);
    (lit "red", Red); (lit "yellow", Yellow); (lit "darkyellow", DarkYellow); (lit "white", AnsiValue 231) ].
Fixpoint first_contained {A} (names : list (str * A)) (s : str) : option A :=
  match names with
  | [] => None
  | (p, a) :: r => if ci_contains p s then Some a else first_contained r s
  end.

(** src/parse/parse_color.rs:51-100 *)
Definition parse_color (k : classes) (s : str) : result Color ParseColorError :=
  match rx_ansi k s with
  | Some value => match parse_u8 value with Some v => Ok (ansi v) | None => Err Unrecognized end
  | None =>
  match rx_grey k s with
  | Some level => match parse_u8 level with
                  | Some l => if (23 <? l)%N then Err (InvalidGreyLevel l) else Ok (gray l)
                  | None => Err Unrecognized
                  end
  | None =>
  match rx_rgb k s with
  | Some (r, g, b) => match parse_u8 r, parse_u8 g, parse_u8 b with
                      | Some r, Some g, Some b => Ok (rgb r g b)
                      | _, _, _ => Err Unrecognized
                      end
  | None =>
  match rx_hex k s with
  | Some (r, g, b) => match hex r, hex g, hex b with
                      | Some r, Some g, Some b => Ok (rgb r g b)
                      | _, _, _ => Err Unrecognized
                      end
  | None => match first_contained color_names s with Some c => Ok c | None => Err Unrecognized end
  end end end end.

(** ** Attributes *)

(** src/parse/parse_attribute.rs:13-41 *)
Definition write_attribute (a : Attribute) : str :=
  match a with
  | AReset => []
  | Bold => lit "Bold"
  | Dim => lit "Dim"
  | Italic => lit "Italic"
  | Underlined => lit "Underlined"
  | SlowBlink => lit "SlowBlink"
  | RapidBlink => lit "RapidBlink"
  | Reverse => lit "Reverse"
  | Hidden => lit "Hidden"
  | CrossedOut => lit "CrossedOut"
  | Fraktur => lit "Fraktur"
  | NoBold => lit "NoBold"
  | NormalIntensity => lit "NormalIntensity"
  | NoItalic => lit "NoItalic"
  | NoUnderline => lit "NoUnderline"
  | NoBlink => lit "NoBlink"
  | NoReverse => lit "NoReverse"
  | NoHidden => lit "NoHidden"
  | NotCrossedOut => lit "NotCrossedOut"
  | Framed => lit "Framed"
  | Encircled => lit "Encircled"
  | OverLined => lit "OverLined"
  | NotFramedOrEncircled => lit "NotFramedOrEncircled"
  | NotOverLined => lit "NotOverLined"
  | DoubleUnderlined | Undercurled | Underdotted | Underdashed => []
  end.

(** src/parse/parse_attribute.rs:44-68; [[_-]?] is unfolded *)
Definition attribute_names : list (str * Attribute) :=
  [ (lit "bold", Bold);
    (lit "crossedout", CrossedOut); (lit "crossed_out", CrossedOut); (lit "crossed-out", CrossedOut);
    (lit "dim", Dim); (lit "italic", Italic);
    (lit "underlined", Underlined); (lit "under_lined", Underlined); (lit "under-lined", Underlined);
    (lit "overlined", OverLined); (lit "over_lined", OverLined); (lit "over-lined", OverLined);
    (lit "reverse", Reverse); (lit "encircled", Encircled);
    (lit "slowblink", SlowBlink); (lit "slow_blink", SlowBlink); (lit "slow-blink", SlowBlink);
    (lit "rapidblink", RapidBlink); (lit "rapid_blink", RapidBlink); (lit "rapid-blink", RapidBlink) ].
Definition parse_attribute (s : str) : option Attribute := first_contained attribute_names s.

(** ** Alignments *)

(** src/parse/parse_align.rs:13-20 *)
Definition write_align (a : Alignment) : str :=
  match a with
  | ALeft => lit "left"
  | Center => lit "center"
  | ARight => lit "right"
  | Unspecified => []
  end.
(** src/parse/parse_align.rs:23-33 *)
Definition parse_align (s : str) : option Alignment :=
  first_contained [(lit "left", ALeft); (lit "center", Center); (lit "right", ARight)] s.

(** ** Style tokens *)

(** src/parse/mod.rs:44-53 *)
Inductive StyleToken :=
| TChar (c : char) | TColor (c : Color) | TAttribute (a : Attribute) | TAlign (a : Alignment) | TDimension (n : N)
| TNone.

(** [Display], src/parse/mod.rs:55-66 *)
Definition write_token (t : StyleToken) : str :=
  match t with
  | TChar c => [c]
  | TColor c => write_color c
  | TAttribute a => write_attribute a
  | TAlign a => write_align a
  | TDimension n => dec n
  | TNone => lit "none"
  end.

(** [to_style_tokens_string] and [style_tokens_to_string]: src/parse/mod.rs:71-84, 100-111 *)
Fixpoint tokens_string (acc : str) (ts : list StyleToken) : str :=
  match ts with
  | [] => acc
  | t :: r => tokens_string (acc ++ (if is_nil acc then [] else [c_space]) ++ write_token t) r
  end.
Definition style_tokens_to_string (ts : list StyleToken) : str := tokens_string [] ts.

(** src/parse/mod.rs:87-98: the space is before the first token only *)
Definition write_style_tokens (ts : list StyleToken) : str :=
  match ts with
  | [] => []
  | t :: r => c_space :: write_token t ++ flat_map write_token r
  end.

(** src/parse/mod.rs:35-41 *)
Inductive ParseStyleTokenError := UnrecognizedToken | InvalidColor (e : ParseColorError).

(** src/parse/mod.rs:113-143 *)
Definition parse_style_token (k : classes) (s : str) : result StyleToken ParseStyleTokenError :=
  if ci_contains (lit "none") s then Ok TNone
  else match parse_u16 s with
  | Some number => Ok (TDimension number)
  | None =>
  match parse_color k s with
  | Ok color => Ok (TColor color)
  | Err (InvalidGreyLevel l) => Err (InvalidColor (InvalidGreyLevel l))
  | Err Unrecognized =>
  match parse_attribute s with
  | Some attribute => Ok (TAttribute attribute)
  | None =>
  match parse_align s with
  | Some align => Ok (TAlign align)
  | None => match s with [c] => Ok (TChar c) | _ => Err UnrecognizedToken end
  end end end end.

(** [[^\s()]] *)
Definition rx_plain (k : classes) (c : char) : bool := negb (rx_space k c || (c =? 40)%N || (c =? 41)%N).
(** [[\w,\s]] *)
Definition rx_inner (k : classes) (c : char) : bool := rx_word k c || (c =? 44)%N || rx_space k c.
(** [(\([\w,\s]+\))]: what it matches at the start of the text, and what follows *)
Definition rx_group (k : classes) (s : str) : option (str * str) :=
  obind (one 40%N s) (fun r =>
  obind (plus (rx_inner k) r) (fun p =>
  obind (one 41%N (snd p)) (fun r' => Some (40%N :: fst p ++ [41%N], r')))).
(** [find_iter] of [[^\s()]+(\([\w,\s]+\))?]: src/parse/mod.rs:147. The group is taken when it matches. *)
Fixpoint find_iter (k : classes) (fuel : nat) (s : str) : list str :=
  match fuel with
  | 0 => []
  | S f =>
      match plus (rx_plain k) s with
      | Some (t, r) => match rx_group k r with
                       | Some (g, r') => (t ++ g) :: find_iter k f r'
                       | None => t :: find_iter k f r
                       end
      | None => match s with [] => [] | _ :: r => find_iter k f r end
      end
  end.
Definition find_tokens (k : classes) (s : str) : list str := find_iter k (List.length s) s.

(** src/parse/mod.rs:145-151 *)
Fixpoint all_ok {A B E} (f : A -> result B E) (l : list A) : result (list B) E :=
  match l with
  | [] => Ok []
  | a :: r => match f a with
              | Err e => Err e
              | Ok b => match all_ok f r with Ok bs => Ok (b :: bs) | Err e => Err e end
              end
  end.
Definition parse_style_tokens (k : classes) (s : str) : result (list StyleToken) ParseStyleTokenError :=
  all_ok (parse_style_token k) (find_tokens k s).
Definition rmap {A B E} (f : A -> B) (r : result A E) : result B E :=
  match r with Ok a => Ok (f a) | Err e => Err e end.

(** ** Compound styles *)

(** src/compound_style.rs:30-39 *)
Definition ATTRIBUTES : list Attribute :=
  [Bold; Dim; Italic; Underlined; Reverse; CrossedOut; Encircled; OverLined].

(** src/parse/parse_compound_style.rs:25-62 *)
Fixpoint cs_of_tokens (fg_set : bool) (style : CStyle) (ts : list StyleToken) : CStyle :=
  match ts with
  | [] => style
  | TColor c :: r => if fg_set then cs_of_tokens fg_set (cs_set_bg style c) r
                     else cs_of_tokens true (cs_set_fg style c) r
  | TNone :: r => cs_of_tokens true style r
  | TAttribute a :: r => cs_of_tokens fg_set (cs_add_attr style a) r
  | _ :: r => cs_of_tokens fg_set style r
  end.
Definition cs_from_tokens (ts : list StyleToken) : CStyle := cs_of_tokens false cs_default ts.
(** src/parse/parse_compound_style.rs:20-23 *)
Definition parse_compound_style (k : classes) (s : str) : result CStyle ParseStyleTokenError :=
  rmap cs_from_tokens (parse_style_tokens k s).
(** src/parse/parse_compound_style.rs:64-80 *)
Definition cs_tokens (cs : CStyle) : list StyleToken :=
  (match fg cs with
   | Some f => [TColor f]
   | None => if is_some (bg cs) then [TNone] else []
   end)
  ++ (match bg cs with Some b => [TColor b] | None => [] end)
  ++ map TAttribute (filter (cs_has_attr cs) ATTRIBUTES).
Definition cs_string (cs : CStyle) : str := style_tokens_to_string (cs_tokens cs).

(** ** Line styles *)

(** The loop of src/parse/parse_line_style.rs:18-32; the state is [align], [left_margin] and [right_margin] *)
Fixpoint ls_of_tokens (align : Alignment) (l r : option N) (ts : list StyleToken) : Alignment * option N * option N :=
  match ts with
  | [] => (align, l, r)
  | TAlign a :: rest => ls_of_tokens a l r rest
  | TDimension n :: rest => if is_some l then ls_of_tokens align l (Some n) rest
                            else ls_of_tokens align (Some n) r rest
  | _ :: rest => ls_of_tokens align l r rest
  end.
Definition unwrap_or {A} (d : A) (o : option A) : A := match o with Some a => a | None => d end.
(** src/parse/parse_line_style.rs:12-42 *)
Definition ls_from_tokens (ts : list StyleToken) : LStyle :=
  let '(align, l, r) := ls_of_tokens Unspecified None None ts in
  mkLS (cs_from_tokens ts) align (N.to_nat (unwrap_or 0%N l)) (N.to_nat (unwrap_or 0%N r)).
(** src/parse/parse_line_style.rs:7-10 *)
Definition parse_line_style (k : classes) (s : str) : result LStyle ParseStyleTokenError :=
  rmap ls_from_tokens (parse_style_tokens k s).
(** [margin.min(65536) as u16] *)
Definition margin_u16 (m : nat) : N := (N.min (N.of_nat m) 65536 mod 65536)%N.
(** src/parse/parse_line_style.rs:44-53 *)
Definition ls_tokens (ls : LStyle) : list StyleToken :=
  cs_tokens (ls_cs ls) ++ [TAlign (ls_align ls)]
  ++ (if (0 <? left_margin ls) || (0 <? right_margin ls)
      then [TDimension (margin_u16 (left_margin ls)); TDimension (margin_u16 (right_margin ls))]
      else []).
Definition ls_string (ls : LStyle) : str := style_tokens_to_string (ls_tokens ls).

(** ** Styled chars *)

Fixpoint first_char (ts : list StyleToken) : option char :=
  match ts with
  | [] => None
  | TChar c :: _ => Some c
  | _ :: r => first_char r
  end.
(** src/parse/parse_styled_char.rs:7-21 *)
Definition parse_styled_char (k : classes) (s : str) (default_nude_char : char)
  : result StyledChar ParseStyleTokenError :=
  rmap (fun ts => sc_new (cs_from_tokens ts) (unwrap_or default_nude_char (first_char ts))) (parse_style_tokens k s).
(** src/parse/parse_styled_char.rs:23-28 *)
Definition sc_tokens (sc : StyledChar) : list StyleToken := TChar (sc_char sc) :: cs_tokens (sc_style sc).
Definition sc_string (sc : StyledChar) : str := style_tokens_to_string (sc_tokens sc).
