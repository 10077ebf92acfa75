(** * Vocabulary for the properties of serialized skins *)
From Coq Require Import String.
From Verif Require Import Base M_Style M_Parse S_Parse M_Serde.
Set Implicit Arguments.

(** The skins which can be built in Rust: 8 headers, the components of colors are [u8] *)
Record valid_skin (s : MadSkin) : Prop := {
  v_paragraph : valid_cs (ls_cs (paragraph s));
  v_bold : valid_cs (bold s);
  v_italic : valid_cs (italic s);
  v_strikeout : valid_cs (strikeout s);
  v_inline_code : valid_cs (inline_code s);
  v_code_block : valid_cs (ls_cs (code_block s));
  v_headers : forall h, In h (headers s) -> valid_cs (ls_cs h);
  v_headers_length : length (headers s) = 8;
  v_track : valid_cs (sc_style (track (scrollbar s)));
  v_thumb : valid_cs (sc_style (thumb (scrollbar s)));
  v_table : valid_cs (ls_cs (table s));
  v_bullet : valid_cs (sc_style (bullet s));
  v_quote_mark : valid_cs (sc_style (quote_mark s));
  v_rule : valid_cs (sc_style (horizontal_rule s));
  v_ellipsis : valid_cs (ellipsis s)
}.

(** A scrollbar is serialized as one styled char when its chars are the same and there's no background *)
Definition simple_sb (sb : ScrollBarStyle) : Prop :=
  sc_char (track sb) = sc_char (thumb sb) /\ bg (sc_style (track sb)) = None /\ bg (sc_style (thumb sb)) = None.

(** The one which is read, for both forms *)
Definition fg_or (d : Color) (o : option Color) (c : char) : StyledChar :=
  sc_from_fg_char (match o with Some c => c | None => d end) c.
Definition reread_sb_simple (k : classes) (sb : ScrollBarStyle) : ScrollBarStyle :=
  let cs := reread_cs (mkCS (fg (sc_style (thumb sb))) (fg (sc_style (track sb))) None 0) in
  let c := reread_char k 42 (sc_char (track sb)) in
  mkSB (fg_or (AnsiValue 237) (bg cs) c) (fg_or (AnsiValue 253) (fg cs) c).
Definition reread_sb_rich (k : classes) (sb : ScrollBarStyle) : ScrollBarStyle :=
  mkSB (reread_sc k 42 (track sb)) (reread_sc k 42 (thumb sb)).

Definition known_borders : list TableBorderChars := [STANDARD_TBC; ASCII_TBC; ROUNDED_TBC].

(** What's read from a serialized skin *)
Record reread_skin (k : classes) (s s' : MadSkin) : Prop := {
  r_paragraph : paragraph s' = reread_ls (paragraph s);
  r_bold : bold s' = reread_cs (bold s);
  r_italic : italic s' = reread_cs (italic s);
  r_strikeout : strikeout s' = reread_cs (strikeout s);
  r_inline_code : inline_code s' = reread_cs (inline_code s);
  r_code_block : code_block s' = reread_ls (code_block s);
  r_headers : headers s' = map reread_ls (headers s);
  r_simple : simple_sb (scrollbar s) -> scrollbar s' = reread_sb_simple k (scrollbar s);
  r_rich : ~ simple_sb (scrollbar s) -> scrollbar s' = reread_sb_rich k (scrollbar s);
  r_table : table s' = reread_ls (table s);
  r_bullet : bullet s' = reread_sc k 42 (bullet s);
  r_quote_mark : quote_mark s' = reread_sc k 42 (quote_mark s);
  r_rule : horizontal_rule s' = reread_sc k 42 (horizontal_rule s);
  r_ellipsis : ellipsis s' = reread_cs (ellipsis s);
  r_borders : In (table_border_chars s) known_borders -> table_border_chars s' = table_border_chars s;
  r_other_borders : ~ In (table_border_chars s) known_borders -> table_border_chars s' = STANDARD_TBC;
  r_indent_mode : indent_mode s' = Block
}.

(** ** The skins which are read back *)

Definition faithful_sc (k : classes) (sc : StyledChar) : Prop :=
  faithful_cs (sc_style sc) /\ printable k (sc_char sc) /\ fresh_cache sc.
(** When it's simple, only the foregrounds are kept *)
Definition faithful_sb (k : classes) (sb : ScrollBarStyle) : Prop :=
  (~ simple_sb sb /\ faithful_sc k (track sb) /\ faithful_sc k (thumb sb))
  \/ (exists f b c, sb = mkSB (sc_from_fg_char b c) (sc_from_fg_char f c)
                    /\ ~ In f lost_colors /\ ~ In b lost_colors /\ printable k c).
Record faithful_skin (k : classes) (s : MadSkin) : Prop := {
  f_paragraph : faithful_ls (paragraph s);
  f_bold : faithful_cs (bold s);
  f_italic : faithful_cs (italic s);
  f_strikeout : faithful_cs (strikeout s);
  f_inline_code : faithful_cs (inline_code s);
  f_code_block : faithful_ls (code_block s);
  f_headers : forall h, In h (headers s) -> faithful_ls h;
  f_scrollbar : faithful_sb k (scrollbar s);
  f_table : faithful_ls (table s);
  f_bullet : faithful_sc k (bullet s);
  f_quote_mark : faithful_sc k (quote_mark s);
  f_rule : faithful_sc k (horizontal_rule s);
  f_ellipsis : faithful_cs (ellipsis s);
  f_borders : In (table_border_chars s) known_borders;
  f_indent_mode : indent_mode s = Block
}.

(** The keys read by termimad *)
Definition known_keys : list str :=
  map lit ["bold"; "italic"; "strikeout"; "inline_code"; "inline-code"; "ellipsis"; "bullet"; "quote_mark"; "quote"; "quote-mark";
           "horizontal_rule"; "horizontal-rule"; "rule"; "scrollbar"; "paragraph"; "code_block"; "code-block"; "table"; "headers";
           "table_border_chars"; "table-border-chars"]%string.

(** A header on which the style of a text is added: what the style says replaces, its attributes are added *)
Record header_over (ls h h' : LStyle) : Prop := {
  ho_fg : fg (ls_cs h') = match fg (ls_cs ls) with Some c => Some c | None => fg (ls_cs h) end;
  ho_bg : bg (ls_cs h') = match bg (ls_cs ls) with Some c => Some c | None => bg (ls_cs h) end;
  ho_underline : underline (ls_cs h') = underline (ls_cs h);
  ho_attrs : forall i, N.testbit (attrs (ls_cs h')) i
             = N.testbit (attrs (ls_cs h)) i || (N.testbit (attrs (ls_cs ls)) i && N.testbit printed_bits i);
  ho_align : ls_align h' = match ls_align ls with Unspecified => ls_align h | a => a end;
  ho_left : left_margin h' = left_margin h;
  ho_right : right_margin h' = right_margin h
}.
