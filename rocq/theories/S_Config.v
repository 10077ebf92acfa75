(** * Vocabulary for C89: what a style text and a skin document mean *)
From Coq Require Import String.
From Verif Require Import Base M_Style M_Parse S_Parse M_Serde.
Set Implicit Arguments.
Open Scope list_scope.

(** The places of colors in a style text: a color, or [none] for a place left empty *)
Definition paint (t : StyleToken) : option (option Color) :=
  match t with TColor c => Some (Some c) | TNone => Some None | _ => None end.
Definition paints (ts : list StyleToken) : list (option Color) := somes (map paint ts).
Definition align_of (t : StyleToken) : option Alignment := match t with TAlign a => Some a | _ => None end.
Definition dimension_of (t : StyleToken) : option N := match t with TDimension n => Some n | _ => None end.
Definition char_of (t : StyleToken) : option char := match t with TChar c => Some c | _ => None end.

Definition first {A} (d : A) (l : list A) : A := hd d l.
(** the last one *)
Definition final {A} (d : A) (l : list A) : A := last l d.

(** The foreground is the first place, the background is the last color of the other ones; the attributes are the
    ones which are there *)
Record means_cs (ts : list StyleToken) (cs : CStyle) : Prop := {
  m_fg : fg cs = first None (paints ts);
  m_bg : bg cs = final None (map Some (somes (tl (paints ts))));
  m_underline : underline cs = None;
  m_attrs : forall i, N.testbit (attrs cs) i = true <-> exists a, In (TAttribute a) ts /\ attr_bit a = i
}.
(** The alignment is the last one, the left margin the first number, the right margin the last of the other ones *)
Record means_ls (ts : list StyleToken) (ls : LStyle) : Prop := {
  m_cs : means_cs ts (ls_cs ls);
  m_align : ls_align ls = final Unspecified (somes (map align_of ts));
  m_left : N.of_nat (left_margin ls) = first 0%N (somes (map dimension_of ts));
  m_right : N.of_nat (right_margin ls) = final 0%N (tl (somes (map dimension_of ts)))
}.
(** The char is the first one *)
Record means_sc (d : char) (ts : list StyleToken) (sc : StyledChar) : Prop := {
  m_style : means_cs ts (sc_style sc);
  m_char : sc_char sc = first d (somes (map char_of ts));
  m_cache : fresh_cache sc
}.

(** A list of texts read one by one: all of them are good, or [e] is the error of the first bad one *)
Definition all_good {A B E} (f : A -> result B E) (l : list A) (bs : list B) : Prop :=
  Forall2 (fun a b => f a = Ok b) l bs.
Definition first_bad {A B E} (f : A -> result B E) (l : list A) (e : E) : Prop :=
  exists before a after, l = before ++ a :: after /\ f a = Err e /\ Forall (fun x => exists b, f x = Ok b) before.

(** A text made of words: any number of blanks around them, at least one between two words *)
Definition blanks (k : classes) (s : str) : Prop := Forall (fun c => rx_space k c = true) s.
(** A word has no blank and no parenthesis, but can end with a group in parentheses, made of word chars, commas and blanks *)
Definition simple_word (k : classes) (w : str) : Prop :=
  w <> [] /\ Forall (fun c => rx_space k c = false /\ c <> 40%N /\ c <> 41%N) w.
Definition word (k : classes) (w : str) : Prop :=
  simple_word k w
  \/ exists name inside, w = name ++ lit "(" ++ inside ++ lit ")" /\ simple_word k name /\ inside <> []
       /\ Forall (fun c => rx_word k c = true \/ c = 44%N \/ rx_space k c = true) inside.
Inductive words_text (k : classes) : str -> list str -> Prop :=
| words_none b : blanks k b -> words_text k b []
| words_last b w : blanks k b -> word k w -> words_text k (b ++ w) [w]
| words_cons b w c s ws : blanks k b -> word k w -> rx_space k c = true -> words_text k s ws ->
    words_text k (b ++ w ++ c :: s) (w :: ws).

(** The part of the skin which a key sets *)
Definition spellings : list (list string) :=
  [ ["bold"]; ["italic"]; ["strikeout"]; ["inline_code"; "inline-code"]; ["ellipsis"]; ["bullet"];
    ["quote_mark"; "quote"; "quote-mark"]; ["horizontal_rule"; "horizontal-rule"; "rule"]; ["scrollbar"];
    ["paragraph"]; ["code_block"; "code-block"]; ["table"]; ["headers"];
    ["table_border_chars"; "table-border-chars"] ]%string.
Definition same_part (a b : str) : Prop :=
  exists names, In names spellings /\ In a (map lit names) /\ In b (map lit names).
(** No part is set twice *)
Inductive each_once : list (str * value) -> Prop :=
| once_nil : each_once []
| once_cons key v l : each_once l -> (forall e, In e l -> ~ same_part key (fst e)) -> each_once ((key, v) :: l).
