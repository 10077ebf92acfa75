(** * Regular expressions: the part of the syntax and of the semantics of the crate regex needed by src/parse

    The patterns are those of the source, as texts. The semantics is the one told by the documentation of the crate: the leftmost match, and
    among the matches starting there the first one in the order of preference (greedy repetitions, alternatives from left to right).
    What isn't in these patterns isn't there: lazy repetitions, flags in the pattern, word boundaries, nested classes...

    Functions of src/parse are written again with their patterns. *)
From Coq Require Import Ascii String.
From Verif Require Import Base M_Style M_Parse.
Set Implicit Arguments.
Open Scope list_scope.

(** ** Syntax *)

(** Sets of chars *)
Inductive cset := CChar (c : char) | CRange (a b : char) | CDigit | CSpace | CWord | CNone | CUnion (a b : cset) | CNot (a : cset).
Inductive regex :=
| RxEmpty
| RxSet (f : cset)
| RxSeq (a b : regex)
| RxAlt (a b : regex)
| RxRepeat (min : nat) (max : option nat) (a : regex)
| RxGroup (name : str) (a : regex)
| RxStart
| RxEnd.

(** [\d], [\s], [\w], or an escaped char *)
Definition rx_escape (c : char) : cset :=
  if (c =? 100)%N then CDigit else if (c =? 115)%N then CSpace else if (c =? 119)%N then CWord else CChar c.
(** The members of a class, until the closing bracket *)
Fixpoint rx_class (s : str) (acc : cset) {struct s} : option (cset * str) :=
  match s with
  | [] => None
  | c :: r =>
      if (c =? 93)%N then Some (acc, r)
      else if (c =? 92)%N then match r with e :: r' => rx_class r' (CUnion acc (rx_escape e)) | [] => None end
      else match r with
           | d :: b :: r' => if (d =? 45)%N && negb (b =? 93)%N then rx_class r' (CUnion acc (CRange c b)) else rx_class r (CUnion acc (CChar c))
           | _ => rx_class r (CUnion acc (CChar c))
           end
  end.
(** The name of a group, until the closing angle *)
Fixpoint rx_name (s : str) (acc : str) : option (str * str) :=
  match s with [] => None | c :: r => if (c =? 62)%N then Some (rev acc, r) else rx_name r (c :: acc) end.
(** The repetition after an atom: [?], [*], [+] or [{m,n}] with m and n of one digit *)
Definition rx_quantified (a : regex) (s : str) : regex * str :=
  match s with
  | c :: r =>
      if (c =? 63)%N then (RxRepeat 0 (Some 1) a, r)
      else if (c =? 42)%N then (RxRepeat 0 None a, r)
      else if (c =? 43)%N then (RxRepeat 1 None a, r)
      else if (c =? 123)%N then
        match r with
        | m :: comma :: n :: close :: r' =>
            if (comma =? 44)%N && (close =? 125)%N then (RxRepeat (N.to_nat (m - 48)) (Some (N.to_nat (n - 48))) a, r') else (a, s)
        | _ => (a, s)
        end
      else (a, s)
  | [] => (a, s)
  end.
(** Alternatives, until the end of the text or a closing parenthesis; [seq] and [alts] are what precedes *)
Fixpoint rx_alts (fuel : nat) (s : str) (alts : option regex) (seq : regex) : option (regex * str) :=
  match fuel with
  | 0 => None
  | S fuel =>
      let done := match alts with Some a => RxAlt a seq | None => seq end in
      let continue (x : regex) (r : str) := let (x, r) := rx_quantified x r in rx_alts fuel r alts (RxSeq seq x) in
      let group (mk : regex -> regex) (r : str) :=
        match rx_alts fuel r None RxEmpty with
        | Some (x, c :: r') => if (c =? 41)%N then continue (mk x) r' else None
        | _ => None
        end in
      match s with
      | [] => Some (done, [])
      | c :: r =>
          if (c =? 41)%N then Some (done, s)
          else if (c =? 124)%N then rx_alts fuel r (Some done) RxEmpty
          else if (c =? 94)%N then continue RxStart r
          else if (c =? 36)%N then continue RxEnd r
          else if (c =? 40)%N then
            match r with
            | q :: t :: r' =>
                if (q =? 63)%N && (t =? 58)%N then group (fun x => x) r'
                else if (q =? 63)%N && (t =? 60)%N then match rx_name r' [] with Some (name, r'') => group (RxGroup name) r'' | None => None end
                else group (RxGroup []) r
            | _ => None
            end
          else if (c =? 91)%N then
            match r with
            | n :: r' => if (n =? 94)%N then match rx_class r' CNone with Some (f, r'') => continue (RxSet (CNot f)) r'' | None => None end
                         else match rx_class r CNone with Some (f, r'') => continue (RxSet f) r'' | None => None end
            | [] => None
            end
          else if (c =? 92)%N then match r with e :: r' => continue (RxSet (rx_escape e)) r' | [] => None end
          else continue (RxSet (CChar c)) r
      end
  end.
(** A pattern without error *)
Definition rx (s : string) : regex :=
  match rx_alts (S (List.length (lit s))) (lit s) None RxEmpty with Some (r, []) => r | _ => RxSet CNone end.

(** ** Semantics *)

(** The chars which are the same as [c] for the flag [i] (simple case folding), among the ASCII ones, the Kelvin sign and the long s *)
Definition variants (c : char) : list char :=
  [c] ++ (if (65 <=? c)%N && (c <=? 90)%N then [c + 32]%N else []) ++ (if is_lower c then [c - 32]%N else [])
  ++ (if (c =? 8490)%N then [75; 107]%N else []) ++ (if (c =? 383)%N then [83; 115]%N else []).
Fixpoint in_set (k : classes) (f : cset) (c : char) : bool :=
  match f with
  | CChar x => (x =? c)%N
  | CRange a b => (a <=? c)%N && (c <=? b)%N
  | CDigit => rx_digit k c
  | CSpace => rx_space k c
  | CWord => rx_word k c
  | CNone => false
  | CUnion a b => in_set k a c || in_set k b c
  | CNot a => negb (in_set k a c)
  end.
(** with the flag [i] or not *)
Definition in_set_i (k : classes) (i : bool) (f : cset) (c : char) : bool :=
  if i then existsb (in_set k f) (variants c) else in_set k f c.

(** A state: are we at the start of the text, what's after, and the captures *)
Record st := mkSt { at_start : bool; after : str; caps : list (str * str) }.

(** Repetitions of [m], the longest first; those which consume nothing aren't repeated. [min] more are needed and [max] possible. *)
Fixpoint repeats (m : st -> list st) (fuel : nat) (min : nat) (max : option nat) (s : st) : list st :=
  (match max, fuel with
   | Some 0, _ => []
   | _, 0 => []
   | _, S f => flat_map (fun s' => if List.length (after s') <? List.length (after s) then repeats m f (min - 1) (option_map pred max) s' else [s']) (m s)
   end) ++ (if min =? 0 then [s] else []).
(** The states after a match starting there, in the order of preference *)
Fixpoint run (k : classes) (i : bool) (r : regex) (s : st) : list st :=
  match r with
  | RxEmpty => [s]
  | RxSet f => match after s with c :: t => if in_set_i k i f c then [mkSt false t (caps s)] else [] | [] => [] end
  | RxSeq a b => flat_map (run k i b) (run k i a s)
  | RxAlt a b => run k i a s ++ run k i b s
  | RxRepeat min max a => repeats (run k i a) (S (List.length (after s))) min max s
  | RxGroup name a => map (fun s' => mkSt (at_start s') (after s') (caps s' ++ [(name, firstn (List.length (after s) - List.length (after s')) (after s))])) (run k i a s)
  | RxStart => if at_start s then [s] else []
  | RxEnd => if is_nil (after s) then [s] else []
  end.

(** The first match in the order of preference, from the first place where there's one: what's before, what's matched, what's after, and the captures *)
Fixpoint find_at (k : classes) (i : bool) (r : regex) (start : bool) (before s : str) : option (str * str * str * list (str * str)) :=
  match run k i r (mkSt start s []) with
  | m :: _ => Some (rev before, firstn (List.length s - List.length (after m)) s, after m, caps m)
  | [] => match s with [] => None | c :: t => find_at k i r false (c :: before) t end
  end.
Definition rx_find (k : classes) (i : bool) (r : regex) (s : str) := find_at k i r true [] s.
(** [regex_is_match!] *)
Definition rx_is_match (k : classes) (i : bool) (r : regex) (s : str) : bool := is_some (rx_find k i r s).
(** A named capture; the text is empty when the group doesn't match, as in [regex_switch!] *)
Fixpoint cap (name : str) (l : list (str * str)) : str :=
  match l with [] => [] | (n, v) :: r => if list_eq_dec N.eq_dec n name then v else cap name r end.
(** the captures of a match *)
Definition rx_captures (k : classes) (i : bool) (r : regex) (s : str) : option (list (str * str)) :=
  option_map snd (rx_find k i r s).
(** [find_iter], for a regular expression which doesn't match the empty text *)
Fixpoint rx_find_iter (k : classes) (i : bool) (r : regex) (fuel : nat) (start : bool) (s : str) : list str :=
  match fuel with
  | 0 => []
  | S f => match find_at k i r start [] s with
           | Some (_, m, rest, _) => m :: rx_find_iter k i r f false rest
           | None => []
           end
  end.

(** ** The functions of src/parse with their patterns *)

(** src/parse/parse_color.rs:51-100 *)
Definition rx_parse_color (k : classes) (s : str) : result Color ParseColorError :=
  match rx_captures k true (rx "^ansi\((?<value>\d+)\)$") s with
  | Some c => match parse_u8 (cap (lit "value") c) with Some v => Ok (ansi v) | None => Err Unrecognized end
  | None =>
  match rx_captures k true (rx "^gr[ae]y(?:scale)?\((?<level>\d+)\)$") s with
  | Some c => match parse_u8 (cap (lit "level") c) with
              | Some l => if (23 <? l)%N then Err (InvalidGreyLevel l) else Ok (gray l)
              | None => Err Unrecognized
              end
  | None =>
  match rx_captures k true (rx "^rgb\((?<r>\d+),\s*(?<g>\d+),\s*(?<b>\d+)\)$") s with
  | Some c => match parse_u8 (cap (lit "r") c), parse_u8 (cap (lit "g") c), parse_u8 (cap (lit "b") c) with
              | Some r, Some g, Some b => Ok (rgb r g b)
              | _, _, _ => Err Unrecognized
              end
  | None =>
  match rx_captures k true (rx "^#(?<r>[\da-f]{1,2})(?<g>[\da-f]{1,2})(?<b>[\da-f]{1,2})$") s with
  | Some c => match hex (cap (lit "r") c), hex (cap (lit "g") c), hex (cap (lit "b") c) with
              | Some r, Some g, Some b => Ok (rgb r g b)
              | _, _, _ => Err Unrecognized
              end
  | None =>
  if rx_is_match k true (rx "black") s then Ok (AnsiValue 16) else
  if rx_is_match k true (rx "blue") s then Ok Blue else
  if rx_is_match k true (rx "cyan") s then Ok Cyan else
  if rx_is_match k true (rx "darkblue") s then Ok DarkBlue else
  if rx_is_match k true (rx "darkcyan") s then Ok DarkCyan else
  if rx_is_match k true (rx "darkgreen") s then Ok DarkGreen else
  if rx_is_match k true (rx "darkmagenta") s then Ok DarkMagenta else
  if rx_is_match k true (rx "darkred") s then Ok DarkRed else
  if rx_is_match k true (rx "green") s then Ok Green else
  if rx_is_match k true (rx "grey") s then Ok Grey else
  if rx_is_match k true (rx "magenta") s then Ok Magenta else
  if rx_is_match k true (rx "red") s then Ok Red else
  if rx_is_match k true (rx "yellow") s then Ok Yellow else
  if rx_is_match k true (rx "darkyellow") s then Ok DarkYellow else
  if rx_is_match k true (rx "white") s then Ok (AnsiValue 231) else
  Err Unrecognized
  end end end end.

(** src/parse/parse_attribute.rs:44-68 *)
Definition rx_parse_attribute (k : classes) (s : str) : option Attribute :=
  if rx_is_match k true (rx "bold") s then Some Bold
  else if rx_is_match k true (rx "crossed[_-]?out") s then Some CrossedOut
  else if rx_is_match k true (rx "dim") s then Some Dim
  else if rx_is_match k true (rx "italic") s then Some Italic
  else if rx_is_match k true (rx "under[_-]?lined") s then Some Underlined
  else if rx_is_match k true (rx "over[_-]?lined") s then Some OverLined
  else if rx_is_match k true (rx "reverse") s then Some Reverse
  else if rx_is_match k true (rx "encircled") s then Some Encircled
  else if rx_is_match k true (rx "slow[_-]?blink") s then Some SlowBlink
  else if rx_is_match k true (rx "rapid[_-]?blink") s then Some RapidBlink
  else None.
(** src/parse/parse_align.rs:23-33 *)
Definition rx_parse_align (k : classes) (s : str) : option Alignment :=
  if rx_is_match k true (rx "left") s then Some ALeft
  else if rx_is_match k true (rx "center") s then Some Center
  else if rx_is_match k true (rx "right") s then Some ARight
  else None.
(** src/parse/mod.rs:113-143 *)
Definition rx_parse_style_token (k : classes) (s : str) : result StyleToken ParseStyleTokenError :=
  if rx_is_match k true (rx "none") s then Ok TNone
  else match parse_u16 s with
  | Some number => Ok (TDimension number)
  | None =>
  match rx_parse_color k s with
  | Ok color => Ok (TColor color)
  | Err (InvalidGreyLevel l) => Err (InvalidColor (InvalidGreyLevel l))
  | Err Unrecognized =>
  match rx_parse_attribute k s with
  | Some attribute => Ok (TAttribute attribute)
  | None =>
  match rx_parse_align k s with
  | Some align => Ok (TAlign align)
  | None => match s with [c] => Ok (TChar c) | _ => Err UnrecognizedToken end
  end end end end.
(** src/parse/mod.rs:145-151 *)
Definition rx_parse_style_tokens (k : classes) (s : str) : result (list StyleToken) ParseStyleTokenError :=
  all_ok (rx_parse_style_token k) (rx_find_iter k false (rx "[^\s()]+(\([\w,\s]+\))?") (List.length s) true s).
