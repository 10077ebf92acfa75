(** * Vocabulary for the layout: what a rendering is without its styles, and the part of a skin which isn't colors and attributes *)
From Verif Require Import Base M_Style M_Render.
Set Implicit Arguments.
Open Scope nat_scope.

(** A command without its style *)
Definition bare (c : cmd) : list cmd :=
  match c with
  | Styled _ s => [Print s]
  | SetFg _ | SetBg _ | ResetColor => []
  | c => [c]
  end.
(** What's written, and where, whatever the styles; or the panic *)
Definition layout (o : outcome (list cmd)) : outcome (list cmd) :=
  match o with Ret out => Ret (flat_map bare out) | Panic => Panic | OutOfFuel => OutOfFuel end.

(** The same margins and alignment *)
Definition same_line (l l' : LStyle) : Prop :=
  ls_align l = ls_align l' /\ left_margin l = left_margin l' /\ right_margin l = right_margin l'.
(** The same char, whatever its style *)
Definition same_char (s s' : StyledChar) : Prop := sc_char s = sc_char s' /\ snd (sc_cache s) = snd (sc_cache s').
(** Two skins which differ only by the compound styles *)
Record same_shape (k k' : MadSkin) : Prop := {
  sh_paragraph : same_line (paragraph k) (paragraph k');
  sh_code_block : same_line (code_block k) (code_block k');
  sh_headers : Forall2 same_line (headers k) (headers k');
  sh_table : same_line (table k) (table k');
  sh_bullet : same_char (bullet k) (bullet k');
  sh_quote_mark : same_char (quote_mark k) (quote_mark k');
  sh_horizontal_rule : same_char (horizontal_rule k) (horizontal_rule k');
  sh_track : same_char (track (scrollbar k)) (track (scrollbar k'));
  sh_thumb : same_char (thumb (scrollbar k)) (thumb (scrollbar k'));
  sh_border : table_border_chars k = table_border_chars k';
  sh_indent : indent_mode k = indent_mode k'
}.
(** The special chars of two skins replace the same compounds by the same chars *)
Definition same_specials (s s' : Special) : Prop :=
  forall c, match s c, s' c with Some a, Some b => same_char a b | None, None => True | _, _ => False end.
(** A styled char keeps a formatted copy of itself: this copy has its char *)
Definition char_ok (s : StyledChar) : Prop := snd (sc_cache s) = sc_char s.
Definition chars_ok (k : MadSkin) : Prop :=
  char_ok (bullet k) /\ char_ok (quote_mark k) /\ char_ok (horizontal_rule k) /\ char_ok (track (scrollbar k)) /\ char_ok (thumb (scrollbar k)).
(** The changes of the colors of a whole skin *)
Inductive recolored : MadSkin -> MadSkin -> Prop :=
| rc_none k : recolored k k
| rc_fg k k' c : recolored k k' -> recolored k (skin_set_fg k' c)
| rc_bg k k' c : recolored k k' -> recolored k (skin_set_bg k' c)
| rc_global_bg k k' c : recolored k k' -> recolored k (skin_set_global_bg k' c)
| rc_blend k k' mix : recolored k k' -> recolored k (skin_blend_with mix k').
