(** * Vocabulary for the colors of the terminal: what's the style in use when a char is written *)
From Verif Require Import Base M_Style.
Set Implicit Arguments.

(** The style in use in a terminal: its colors, [Reset] being the default one, and the attributes given since they were last reset.
    The color of underlines isn't there. *)
Record pen := mkPen { p_fg : Color; p_bg : Color; p_attrs : N }.
(** The default style *)
Definition pen0 : pen := mkPen Reset Reset 0.
(** How [PrintStyledContent] of crossterm changes it before the text: the colors first, then the attributes (the attribute [Reset] being the first
    of them) *)
Definition worn_over (p : pen) (cs : CStyle) : pen :=
  if cs_has_attr cs AReset then mkPen Reset Reset (attrs cs)
  else mkPen (match fg cs with Some c => c | None => p_fg p end) (match bg cs with Some c => c | None => p_bg p end) (N.lor (p_attrs p) (attrs cs)).
(** and after the text: all is reset if there are attributes, or else the colors which were set *)
Definition worn_out (p : pen) (cs : CStyle) : pen :=
  if N.eqb (attrs cs) 0 then
    mkPen (match fg cs, underline cs with None, None => p_fg p | _, _ => Reset end) (match bg cs with Some _ => Reset | None => p_bg p end) (p_attrs p)
  else pen0.

(** What is written by commands, each char with the style in use; [None] is for an erased part of the screen *)
Fixpoint inked (p : pen) (out : list cmd) : list (option char * pen) :=
  match out with
  | [] => []
  | Print s :: r => map (fun c => (Some c, p)) s ++ inked p r
  | Styled cs s :: r => map (fun c => (Some c, worn_over p cs)) s ++ inked (worn_out p cs) r
  | SetFg c :: r => inked (mkPen c (p_bg p) (p_attrs p)) r
  | SetBg c :: r => inked (mkPen (p_fg p) c (p_attrs p)) r
  | MoveTo _ _ :: r => inked p r
  | ClearUntilNewLine :: r | ClearCurrentLine :: r | ClearAll :: r => (None, p) :: inked p r
  | ResetColor :: r => inked pen0 r
  end.
(** The style in use after them *)
Fixpoint pen_after (p : pen) (out : list cmd) : pen :=
  match out with
  | [] => p
  | Styled cs _ :: r => pen_after (worn_out p cs) r
  | SetFg c :: r => pen_after (mkPen c (p_bg p) (p_attrs p)) r
  | SetBg c :: r => pen_after (mkPen (p_fg p) c (p_attrs p)) r
  | ResetColor :: r => pen_after pen0 r
  | _ :: r => pen_after p r
  end.

(** The chars with the style they're given, if any *)
Fixpoint given (out : list cmd) : list (option char * option CStyle) :=
  match out with
  | [] => []
  | Print s :: r => map (fun c => (Some c, None)) s ++ given r
  | Styled cs s :: r => map (fun c => (Some c, Some cs)) s ++ given r
  | ClearUntilNewLine :: r | ClearCurrentLine :: r | ClearAll :: r => (None, None) :: given r
  | _ :: r => given r
  end.
(** The look of a style on a terminal which has its default one *)
Definition worn (cs : option CStyle) : pen := match cs with Some cs => worn_over pen0 cs | None => pen0 end.
(** On a terminal having its default style: all is written with exactly the style it's given, and the terminal has its default style after *)
Definition faithful (out : list cmd) : Prop :=
  inked pen0 out = map (fun x => (fst x, worn (snd x))) (given out) /\ pen_after pen0 out = pen0.
