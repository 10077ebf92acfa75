(** * Vocabulary for the origin of what is written: the text, or the skin *)
From Verif Require Import Base M_Style M_Fit M_Wrap S_Wrap M_Text M_Render S_Render.
Set Implicit Arguments.
Open Scope nat_scope.

(** The composites of a text: paragraphs, titles, items, quotes, lines of code, cells of tables *)
Definition composites_of (text : list MLine) : list MComposite :=
  flat_map (fun l => match l with MNormal c => [c] | MTableRow cells => cells | _ => [] end) text.
(** The style of the chars with some flags in a line whose style is [ls] *)
Definition text_style (k : MadSkin) (ls : LStyle) (f : bool * bool * bool * bool) : CStyle :=
  match f with (b, i, c, s) => compound_style k ls (mkCompound [] b i c s) end.
(** A char of a composite of the text, with the style of its line and of its flags.
    A word which is just an ellipsis has the style of the ellipsis. *)
Definition of_text (k : MadSkin) (text : list MLine) (x : char * CStyle) : Prop :=
  exists mc f ls, In mc (composites_of text) /\ In (fst x, f) (styled (mc_compounds mc)) /\ line_style k (kind_of (mc_style mc)) = Ret ls
    /\ (snd x = text_style k ls f \/ fst x = c_ellipsis /\ snd x = ellipsis k).
(** The chars of the borders of tables *)
Definition border_chars (t : TableBorderChars) : list char :=
  [horizontal t; vertical t; top_left_corner t; top_right_corner t; bottom_right_corner t; bottom_left_corner t;
   top_junction t; right_junction t; bottom_junction t; left_junction t; cross t].
(** A char which the skin itself writes: spaces having the style of a kind of line, marks, horizontal rules, borders of tables *)
Inductive of_skin (k : MadSkin) : char * CStyle -> Prop :=
| os_space kind ls : line_style k kind = Ret ls -> of_skin k (32%N, ls_cs ls)
| os_bullet : of_skin k (drawn_char (bullet k))
| os_quote : of_skin k (drawn_char (quote_mark k))
| os_rule : of_skin k (sc_char (horizontal_rule k), sc_style (horizontal_rule k))
| os_border c : In c (border_chars (table_border_chars k)) -> of_skin k (c, ls_cs (table k)).
(** A special char, replacing a compound of the text *)
Definition of_special (special : Special) (x : char * CStyle) : Prop := exists c r, special c = Some r /\ x = drawn_char r.
Definition origin (special : Special) (k : MadSkin) (text : list MLine) (x : char * CStyle) : Prop :=
  of_text k text x \/ of_skin k x \/ of_special special x.

(** A skin whose styles are all the default one (but the scrollbar) *)
Record plain_skin (k : MadSkin) : Prop := {
  pl_paragraph : ls_cs (paragraph k) = cs_default;
  pl_code_block : ls_cs (code_block k) = cs_default;
  pl_headers : Forall (fun h => ls_cs h = cs_default) (headers k);
  pl_table : ls_cs (table k) = cs_default;
  pl_bold : bold k = cs_default; pl_italic : italic k = cs_default; pl_strikeout : strikeout k = cs_default; pl_code : inline_code k = cs_default;
  pl_ellipsis : ellipsis k = cs_default;
  pl_bullet : fst (sc_cache (bullet k)) = cs_default;
  pl_quote : fst (sc_cache (quote_mark k)) = cs_default;
  pl_rule : sc_style (horizontal_rule k) = cs_default
}.
