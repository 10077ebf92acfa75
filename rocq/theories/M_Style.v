(** * Model of the styles: crossterm's content styles, src/compound_style.rs, src/styled_char.rs,
    src/line_style.rs, src/color.rs, src/scrollbar_style.rs, src/table_border_chars.rs and the style
    part of src/skin.rs

    Mutating methods are functions returning the new value. *)
From Verif Require Import Base.
Set Implicit Arguments.

(** crossterm's [Color] *)
Inductive Color :=
| Reset | Black | DarkGrey | Red | DarkRed | Green | DarkGreen | Yellow | DarkYellow | Blue | DarkBlue
| Magenta | DarkMagenta | Cyan | DarkCyan | White | Grey
| Rgb (r g b : N)
| AnsiValue (n : N).

(** crossterm's [Attribute], in its order; its [Reset] is [AReset] here *)
Inductive Attribute := AReset | Bold | Dim | Italic | Underlined | DoubleUnderlined | Undercurled | Underdotted
| Underdashed | SlowBlink | RapidBlink | Reverse | Hidden | CrossedOut | Fraktur | NoBold | NormalIntensity
| NoItalic | NoUnderline | NoBlink | NoReverse | NoHidden | NotCrossedOut | Framed | Encircled | OverLined
| NotFramedOrEncircled | NotOverLined.

(** position of the attribute in crossterm's bit set: its rank plus one *)
Definition attr_bit (a : Attribute) : N :=
  match a with
  | AReset => 1 | Bold => 2 | Dim => 3 | Italic => 4 | Underlined => 5 | DoubleUnderlined => 6 | Undercurled => 7
  | Underdotted => 8 | Underdashed => 9 | SlowBlink => 10 | RapidBlink => 11 | Reverse => 12 | Hidden => 13
  | CrossedOut => 14 | Fraktur => 15 | NoBold => 16 | NormalIntensity => 17 | NoItalic => 18 | NoUnderline => 19
  | NoBlink => 20 | NoReverse => 21 | NoHidden => 22 | NotCrossedOut => 23 | Framed => 24 | Encircled => 25
  | OverLined => 26 | NotFramedOrEncircled => 27 | NotOverLined => 28
  end.

(** crossterm's [Attributes]: [set], [unset], [has], [extend] *)
Definition attrs_set (s : N) (a : Attribute) : N := N.setbit s (attr_bit a).
Definition attrs_unset (s : N) (a : Attribute) : N := N.clearbit s (attr_bit a).
Definition attrs_has (s : N) (a : Attribute) : bool := N.testbit s (attr_bit a).
Definition attrs_extend (s t : N) : N := N.lor s t.

(** [CompoundStyle]: a crossterm [ContentStyle]. src/compound_style.rs:42-45 *)
Record CStyle := mkCS { fg : option Color; bg : option Color; underline : option Color; attrs : N }.

(** derived [Default], src/compound_style.rs:42 *)
Definition cs_default : CStyle := mkCS None None None 0.

(** src/compound_style.rs:63-76 *)
Definition cs_new (f b : option Color) (a : N) : CStyle := mkCS f b None a.
(** src/compound_style.rs:96-98 *)
Definition with_fgbg (f b : Color) : CStyle := cs_new (Some f) (Some b) 0.
(** src/compound_style.rs:101-103 *)
Definition with_fg (f : Color) : CStyle := cs_new (Some f) None 0.
(** src/compound_style.rs:106-108 *)
Definition with_bg (b : Color) : CStyle := cs_new None (Some b) 0.

(** src/compound_style.rs:118-120 *)
Definition cs_set_fg (s : CStyle) (c : Color) : CStyle := mkCS (Some c) (bg s) (underline s) (attrs s).
(** src/compound_style.rs:123-125 *)
Definition cs_set_bg (s : CStyle) (c : Color) : CStyle := mkCS (fg s) (Some c) (underline s) (attrs s).
(** src/compound_style.rs:128-131 *)
Definition cs_set_fgbg (s : CStyle) (f b : Color) : CStyle := mkCS (Some f) (Some b) (underline s) (attrs s).
(** src/compound_style.rs:134-136 *)
Definition cs_add_attr (s : CStyle) (a : Attribute) : CStyle :=
  mkCS (fg s) (bg s) (underline s) (attrs_set (attrs s) a).
(** src/compound_style.rs:139-141 *)
Definition cs_has_attr (s : CStyle) (a : Attribute) : bool := attrs_has (attrs s) a.
(** src/compound_style.rs:144-146 *)
Definition cs_remove_attr (s : CStyle) (a : Attribute) : CStyle :=
  mkCS (fg s) (bg s) (underline s) (attrs_unset (attrs s) a).
(** src/compound_style.rs:111-115 *)
Definition with_attr (a : Attribute) : CStyle := cs_add_attr cs_default a.

(** [Option::or] *)
Definition opt_or {A} (a b : option A) : option A := match a with Some _ => a | None => b end.

(** src/compound_style.rs:150-162 *)
Definition overwrite_with (s other : CStyle) : CStyle :=
  mkCS (opt_or (fg other) (fg s)) (opt_or (bg other) (bg s)) (underline s)
       (attrs_extend (attrs s) (attrs other)).

(** src/compound_style.rs:82-93. [mix src] stands for
    [coolor::Color::blend(src, 1.0 - weight, dest, weight).into()] for the given [dest] and [weight]
    (the coolor crate isn't modelled). The debug assertion on the weight is left out.
    The second block reads and writes the foreground, as in the code. *)
Definition cs_blend_with (mix : Color -> Color) (s : CStyle) : CStyle :=
  let s1 := match fg s with
            | Some f => mkCS (Some (mix f)) (bg s) (underline s) (attrs s)
            | None => s
            end in
  match fg s1 with
  | Some b => mkCS (Some (mix b)) (bg s1) (underline s1) (attrs s1)
  | None => s1
  end.

(** ** What is sent to the terminal *)

(** The crossterm commands used by termimad, and raw text. The ANSI encoding isn't modelled. *)
Inductive cmd :=
| Print (s : str)                 (* text, with the current terminal style *)
| Styled (cs : CStyle) (s : str)  (* PrintStyledContent *)
| SetFg (c : Color)
| SetBg (c : Color)
| MoveTo (x y : N)
| ClearUntilNewLine
| ClearCurrentLine
| ClearAll
| ResetColor.

(** [CompoundStyle::apply_to] then display, or [CompoundStyle::queue], [queue_str]:
    src/compound_style.rs:55-60, 204-220 *)
Definition cs_queue (cs : CStyle) (s : str) : list cmd := [Styled cs s].

(** src/compound_style.rs:222-230 *)
Definition cs_queue_fg (cs : CStyle) : list cmd := match fg cs with Some c => [SetFg c] | None => [] end.
(** src/compound_style.rs:232-240 *)
Definition cs_queue_bg (cs : CStyle) : list cmd := match bg cs with Some c => [SetBg c] | None => [] end.

(** src/compound_style.rs:176-182 *)
Definition cs_repeat_char (cs : CStyle) (c : char) (count : nat) : list cmd :=
  if 0 <? count then [Styled cs (repeat c count)] else [].
(** src/compound_style.rs:188-194 *)
Definition cs_repeat_string (cs : CStyle) (s : str) (count : nat) : list cmd :=
  if 0 <? count then [Styled cs (concat (repeat s count))] else [].
(** src/compound_style.rs:198-200 *)
Definition cs_repeat_space (cs : CStyle) (count : nat) : list cmd := cs_repeat_string cs [c_space] count.

(** ** src/color.rs *)

(** src/color.rs:8-10 *)
Definition rgb (r g b : N) : Color := Rgb r g b.
(** src/color.rs:13-16 *)
Definition gray (level : N) : Color := AnsiValue (232 + N.min level 23).
(** src/color.rs:19-21 *)
Definition ansi (level : N) : Color := AnsiValue level.

(** ** Styled chars *)

(** src/styled_char.rs:26-30; [sc_cache] is the field [styled_char] *)
Record StyledChar := mkSC { sc_style : CStyle; sc_char : char; sc_cache : CStyle * char }.

(** src/styled_char.rs:33-39 *)
Definition sc_new (cs : CStyle) (c : char) : StyledChar := mkSC cs c (cs, c).
(** src/styled_char.rs:40-42 *)
Definition sc_nude (c : char) : StyledChar := sc_new cs_default c.
(** src/styled_char.rs:46-48 *)
Definition sc_from_fg_char (f : Color) (c : char) : StyledChar := sc_new (with_fg f) c.
(** src/styled_char.rs:50-53 *)
Definition sc_set_char (s : StyledChar) (c : char) : StyledChar := mkSC (sc_style s) c (sc_style s, c).
(** src/styled_char.rs:58-61 *)
Definition sc_set_fg (s : StyledChar) (c : Color) : StyledChar :=
  let cs := cs_set_fg (sc_style s) c in mkSC cs (sc_char s) (cs, sc_char s).
(** src/styled_char.rs:66-69 *)
Definition sc_set_bg (s : StyledChar) (c : Color) : StyledChar :=
  let cs := cs_set_bg (sc_style s) c in mkSC cs (sc_char s) (cs, sc_char s).
(** src/styled_char.rs:74-77 *)
Definition sc_set_compound_style (s : StyledChar) (cs : CStyle) : StyledChar :=
  mkSC cs (sc_char s) (cs, sc_char s).
(** src/styled_char.rs:101-103 *)
Definition sc_blend_with (mix : Color -> Color) (s : StyledChar) : StyledChar :=
  mkSC (cs_blend_with mix (sc_style s)) (sc_char s) (sc_cache s).
(** [queue] and [Display]: src/styled_char.rs:97-100, 106-110 *)
Definition sc_queue (s : StyledChar) : list cmd := [Styled (fst (sc_cache s)) [snd (sc_cache s)]].
(** [repeated] displayed, or [queue_repeat]: src/styled_char.rs:83-96 *)
Definition sc_repeated (s : StyledChar) (count : nat) : list cmd :=
  [Styled (sc_style s) (repeat (sc_char s) count)].

(** A mutation of a styled char, and a history of them *)
Inductive sc_op :=
| ScSetChar (c : char) | ScSetFg (c : Color) | ScSetBg (c : Color) | ScSetStyle (cs : CStyle)
| ScBlend (mix : Color -> Color).
Definition sc_apply (s : StyledChar) (o : sc_op) : StyledChar :=
  match o with
  | ScSetChar c => sc_set_char s c
  | ScSetFg c => sc_set_fg s c
  | ScSetBg c => sc_set_bg s c
  | ScSetStyle cs => sc_set_compound_style s cs
  | ScBlend mix => sc_blend_with mix s
  end.
Definition sc_run (s : StyledChar) (ops : list sc_op) : StyledChar := fold_left sc_apply ops s.

(** ** Line styles *)

(** minimad's [Alignment] *)
Inductive Alignment := Unspecified | ALeft | Center | ARight.

(** src/line_style.rs:19-24 *)
Record LStyle := mkLS { ls_cs : CStyle; ls_align : Alignment; left_margin : nat; right_margin : nat }.
(** derived [Default], src/line_style.rs:18 *)
Definition ls_default : LStyle := mkLS cs_default Unspecified 0 0.
(** src/line_style.rs:93-102 *)
Definition ls_from_cs (cs : CStyle) : LStyle := mkLS cs Unspecified 0 0.
(** src/line_style.rs:29-36 *)
Definition margins_in (l : LStyle) (available_width : option nat) : nat * nat :=
  match available_width with
  | Some width => if width <? left_margin l + right_margin l + 3 then (0, 0)
                  else (left_margin l, right_margin l)
  | None => (left_margin l, right_margin l)
  end.
Definition ls_with (l : LStyle) (cs : CStyle) : LStyle :=
  mkLS cs (ls_align l) (left_margin l) (right_margin l).
(** src/line_style.rs:49-51 *)
Definition ls_set_fg (l : LStyle) (c : Color) : LStyle := ls_with l (cs_set_fg (ls_cs l) c).
(** src/line_style.rs:55-57 *)
Definition ls_set_bg (l : LStyle) (c : Color) : LStyle := ls_with l (cs_set_bg (ls_cs l) c).
(** src/line_style.rs:60-62 *)
Definition ls_set_fgbg (l : LStyle) (f b : Color) : LStyle := ls_with l (cs_set_fgbg (ls_cs l) f b).
(** src/line_style.rs:66-68 *)
Definition ls_add_attr (l : LStyle) (a : Attribute) : LStyle := ls_with l (cs_add_attr (ls_cs l) a).
(** src/line_style.rs:88-90 *)
Definition ls_blend_with (mix : Color -> Color) (l : LStyle) : LStyle :=
  ls_with l (cs_blend_with mix (ls_cs l)).
(** src/line_style.rs:84-86: through [repeat_char] *)
Definition ls_repeat_space (l : LStyle) (count : nat) : list cmd := cs_repeat_char (ls_cs l) c_space count.

(** ** Scrollbar style *)

(** src/scrollbar_style.rs:13-16 *)
Record ScrollBarStyle := mkSB { track : StyledChar; thumb : StyledChar }.
Definition c_scroll : char := 9616%N. (* '▐' *)
(** src/scrollbar_style.rs:19-25 *)
Definition sb_new : ScrollBarStyle :=
  mkSB (sc_from_fg_char (gray 5) c_scroll) (sc_from_fg_char (gray 21) c_scroll).
(** src/scrollbar_style.rs:26-29 *)
Definition sb_set_bg (s : ScrollBarStyle) (c : Color) : ScrollBarStyle :=
  mkSB (sc_set_bg (track s) c) (sc_set_bg (thumb s) c).
(** src/scrollbar_style.rs:38-46 *)
Definition sb_from_sc (sc : StyledChar) : ScrollBarStyle :=
  let get o d := match o with Some c => c | None => d end in
  mkSB (sc_from_fg_char (get (bg (sc_style sc)) (gray 5)) (sc_char sc))
       (sc_from_fg_char (get (fg (sc_style sc)) (gray 21)) (sc_char sc)).

(** ** Table border chars: src/table_border_chars.rs:3-15 *)
Record TableBorderChars := mkTBC {
  horizontal : char; vertical : char;
  top_left_corner : char; top_right_corner : char; bottom_right_corner : char; bottom_left_corner : char;
  top_junction : char; right_junction : char; bottom_junction : char; left_junction : char; cross : char
}.
(** src/table_border_chars.rs:43-55 *)
Definition STANDARD_TBC := mkTBC 9472 9474 9484 9488 9496 9492 9516 9508 9524 9500 9532.
(** src/table_border_chars.rs:60-72 *)
Definition ASCII_TBC := mkTBC 45 124 43 43 43 43 43 43 43 43 43.
(** src/table_border_chars.rs:80-92 *)
Definition ROUNDED_TBC := mkTBC 9472 9474 9581 9582 9583 9584 9516 9508 9524 9500 9532.

(** ** The skin *)

(** src/list_indentation.rs:8-12 *)
Inductive IndentMode := FirstLineOnly | Block.

(** minimad's MAX_HEADER_DEPTH *)
Definition MAX_HEADER_DEPTH := 8.

(** src/skin.rs:36-60, without the [special_chars] of the [special-renders] feature; the array of headers is a list
    (of length [MAX_HEADER_DEPTH], see [skin_ok]). *)
Record MadSkin := mkSkin {
  paragraph : LStyle;
  bold : CStyle; italic : CStyle; strikeout : CStyle; inline_code : CStyle;
  code_block : LStyle;
  headers : list LStyle;
  scrollbar : ScrollBarStyle;
  table : LStyle;
  bullet : StyledChar; quote_mark : StyledChar; horizontal_rule : StyledChar;
  ellipsis : CStyle;
  table_border_chars : TableBorderChars;
  indent_mode : IndentMode
}.
Definition skin_ok (k : MadSkin) : Prop := length (headers k) = MAX_HEADER_DEPTH.

Definition set_headers (k : MadSkin) (hs : list LStyle) : MadSkin :=
  mkSkin (paragraph k) (bold k) (italic k) (strikeout k) (inline_code k) (code_block k) hs (scrollbar k)
    (table k) (bullet k) (quote_mark k) (horizontal_rule k) (ellipsis k) (table_border_chars k) (indent_mode k).

(** [Default], src/skin.rs:71-102 *)
Definition skin_default : MadSkin :=
  let h := ls_add_attr ls_default Underlined in
  let h0 := ls_add_attr h Bold in
  mkSkin ls_default (with_attr Bold) (with_attr Italic) (with_attr CrossedOut)
    (with_fgbg (gray 17) (gray 3))
    (ls_set_fgbg ls_default (gray 17) (gray 3))
    (mkLS (ls_cs h0) Center (left_margin h0) (right_margin h0) :: repeat h 7)
    sb_new
    (ls_from_cs (with_fg (gray 7)))
    (sc_from_fg_char (gray 8) 8226)
    (sc_new (cs_new (Some (gray 12)) None (attrs_set 0 Bold)) 9616)
    (sc_from_fg_char (gray 6) 8213)
    cs_default STANDARD_TBC Block.

(** src/skin.rs:112-132 *)
Definition skin_no_style : MadSkin :=
  mkSkin ls_default cs_default cs_default cs_default cs_default ls_default (repeat ls_default 8) sb_new
    ls_default (sc_nude 8226) (sc_nude 9616) (sc_nude 8213) cs_default STANDARD_TBC Block.

(** src/skin.rs:178-193 (the scrollbar isn't blended) *)
Definition skin_blend_with (mix : Color -> Color) (k : MadSkin) : MadSkin :=
  mkSkin (ls_blend_with mix (paragraph k)) (cs_blend_with mix (bold k)) (cs_blend_with mix (italic k))
    (cs_blend_with mix (strikeout k)) (cs_blend_with mix (inline_code k)) (ls_blend_with mix (code_block k))
    (map (ls_blend_with mix) (headers k)) (scrollbar k) (ls_blend_with mix (table k))
    (sc_blend_with mix (bullet k)) (sc_blend_with mix (quote_mark k)) (sc_blend_with mix (horizontal_rule k))
    (cs_blend_with mix (ellipsis k)) (table_border_chars k) (indent_mode k).

(** src/skin.rs:201-217, 249-253 *)
Definition skin_set_fg (k : MadSkin) (c : Color) : MadSkin :=
  mkSkin (ls_set_fg (paragraph k) c) (cs_set_fg (bold k) c) (cs_set_fg (italic k) c)
    (cs_set_fg (strikeout k) c) (inline_code k) (code_block k)
    (map (fun h => ls_set_fg h c) (headers k)) (scrollbar k) (table k)
    (sc_set_fg (bullet k) c) (sc_set_fg (quote_mark k) c) (sc_set_fg (horizontal_rule k) c)
    (cs_set_fg (ellipsis k) c) (table_border_chars k) (indent_mode k).

(** src/skin.rs:225-243, 259-263 *)
Definition skin_set_bg (k : MadSkin) (c : Color) : MadSkin :=
  mkSkin (ls_set_bg (paragraph k) c) (cs_set_bg (bold k) c) (cs_set_bg (italic k) c)
    (cs_set_bg (strikeout k) c) (inline_code k) (code_block k)
    (map (fun h => ls_set_bg h c) (headers k)) (sb_set_bg (scrollbar k) c) (ls_set_bg (table k) c)
    (sc_set_bg (bullet k) c) (sc_set_bg (quote_mark k) c) (sc_set_bg (horizontal_rule k) c)
    (cs_set_bg (ellipsis k) c) (table_border_chars k) (indent_mode k).

(** src/skin.rs:267-271 *)
Definition skin_set_global_bg (k : MadSkin) (c : Color) : MadSkin :=
  mkSkin (ls_set_bg (paragraph k) c) (bold k) (italic k) (strikeout k) (inline_code k) (code_block k)
    (map (fun h => ls_set_bg h c) (headers k)) (scrollbar k) (table k)
    (bullet k) (quote_mark k) (sc_set_bg (horizontal_rule k) c)
    (ellipsis k) (table_border_chars k) (indent_mode k).

(** src/skin.rs:166-171 *)
Definition skin_limit_to_ascii (k : MadSkin) : MadSkin :=
  mkSkin (paragraph k) (bold k) (italic k) (strikeout k) (inline_code k) (code_block k) (headers k) (scrollbar k)
    (table k) (sc_set_char (bullet k) 42) (sc_set_char (quote_mark k) 62) (sc_set_char (horizontal_rule k) 45)
    (ellipsis k) ASCII_TBC (indent_mode k).

(** ** Compounds *)

(** minimad's [Compound] *)
Record Compound := mkCompound {
  src : str; c_bold : bool; c_italic : bool; c_code : bool; c_strikeout : bool
}.

(** [*compound.src == *ELLIPSIS] *)
Definition is_ellipsis (c : Compound) : bool :=
  match src c with [x] => N.eqb x c_ellipsis | _ => false end.

(** src/skin.rs:314-332 *)
Definition compound_style (k : MadSkin) (l : LStyle) (c : Compound) : CStyle :=
  if is_ellipsis c then ellipsis k else
  let os := ls_cs l in
  let os := if c_italic c then overwrite_with os (italic k) else os in
  let os := if c_strikeout c then overwrite_with os (strikeout k) else os in
  let os := if c_bold c then overwrite_with os (bold k) else os in
  let os := if c_code c then overwrite_with os (inline_code k) else os in
  os.

(** src/composite_kind.rs:8-15 *)
Inductive CompositeKind :=
| KParagraph | KHeader (level : nat) | KListItem (depth : nat) | KListItemFollowUp (depth : nat) | KCode | KQuote.

(** src/skin.rs:302-310; [level as usize - 1] panics for a level of 0, which minimad never gives *)
Definition line_style (k : MadSkin) (kind : CompositeKind) : outcome LStyle :=
  match kind with
  | KCode => Ret (code_block k)
  | KHeader level =>
      if level <=? MAX_HEADER_DEPTH then (i <- csub level 1 ;; idx (headers k) i) else Ret (paragraph k)
  | _ => Ret (paragraph k)
  end.
