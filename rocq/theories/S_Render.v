(** * Vocabulary for what is displayed *)
From Verif Require Import Base M_Style M_Fit M_Wrap S_Wrap M_Text S_Text M_Render.
Set Implicit Arguments.
Open Scope nat_scope.

(** The chars written on the terminal with their style *)
Definition drawn (l : list cmd) : list (char * CStyle) :=
  flat_map (fun c => match c with
    | Print s => map (fun ch => (ch, cs_default)) s
    | Styled cs s => map (fun ch => (ch, cs)) s
    | _ => []
    end) l.
(** The kinds which can be drawn: header levels are at least 1 and, the depths of lists being [u8], they're less than 255 *)
Definition drawn_kind (kind : CompositeKind) : Prop :=
  good_kind kind /\ match kind with KListItem d | KListItemFollowUp d => d < 255 | _ => True end.
(** The number of columns taken by some chars *)
Definition drawn_width (u : unicode) (d : list (char * CStyle)) : nat := sumw (chw u) (map fst d).
(** The number of columns printed *)
Definition printed (u : unicode) (l : list cmd) : nat := drawn_width u (drawn l).
Definition blanks (cs : CStyle) (n : nat) : list (char * CStyle) := repeat (32%N, cs) n.
Definition drawn_char (s : StyledChar) : char * CStyle := (snd (sc_cache s), fst (sc_cache s)).

(** [lp] and [rp] share what's left of [outer], according to the alignment *)
Definition shared (align : Alignment) (inner outer lp rp : nat) : Prop :=
  lp + rp = outer - inner
  /\ match align with
     | ALeft | Unspecified => lp = 0
     | ARight => rp = 0
     | Center => lp <= rp <= lp + 1
     end.
Definition shared_opt (align : Alignment) (inner : nat) (outer : option nat) (lp rp : nat) : Prop :=
  match outer with Some w => shared align inner w lp rp | None => lp = 0 /\ rp = 0 end.

(** The space for a composite: its length or the width of its spacing *)
Definition room (fc : FmtComposite) : nat := match fc_spacing fc with Some sp => sp_width sp | None => visible_length fc end.

(** What's drawn before the text *)
Definition mark_drawn (k : MadSkin) (kind : CompositeKind) : list (char * CStyle) :=
  let p := ls_cs (paragraph k) in
  match kind with
  | KListItem d => blanks p d ++ [drawn_char (bullet k)] ++ blanks p 1
  | KListItemFollowUp d => match indent_mode k with Block => blanks p (d + 2) | FirstLineOnly => [] end
  | KQuote => [drawn_char (quote_mark k)] ++ blanks p 1
  | _ => []
  end.
(** What's drawn for a compound *)
Definition compound_drawn (special : Special) (k : MadSkin) (ls : LStyle) (c : Compound) : list (char * CStyle) :=
  match special c with
  | Some r => [drawn_char r]
  | None => map (fun ch => (ch, compound_style k ls c)) (src c)
  end.
(** The margins are the ones of the style, unless there's not enough width for them and 3 columns *)
Definition margins_ok (ls : LStyle) (with_margins : bool) (outer : option nat) (lm rm : nat) : Prop :=
  (with_margins = false -> lm = 0 /\ rm = 0)
  /\ (with_margins = true -> match outer with
      | Some w => (left_margin ls + right_margin ls + 3 <= w -> lm = left_margin ls /\ rm = right_margin ls)
                  /\ (w < left_margin ls + right_margin ls + 3 -> lm = 0 /\ rm = 0)
      | None => lm = left_margin ls /\ rm = right_margin ls
      end).
(** What's drawn for a composite, in order: outer padding and margin, inner padding, mark, text, inner padding, right completion *)
Definition composite_drawn (special : Special) (k : MadSkin) (fc : FmtComposite) (outer : option nat) (complete with_margins : bool)
    (d : list (char * CStyle)) : Prop :=
  exists ls lm rm lp rp li ri,
    line_style k (fc_kind fc) = Ret ls
    /\ margins_ok ls with_margins outer lm rm
    /\ shared_opt (ls_align ls) (room fc + lm + rm) outer lp rp
    /\ match fc_spacing fc with
       | Some sp => shared (sp_align sp) (visible_length fc) (sp_width sp) li ri
       | None => li = 0 /\ ri = 0
       end
    /\ d = blanks (ls_cs (paragraph k)) (lp + lm) ++ blanks (ls_cs ls) li ++ mark_drawn k (fc_kind fc)
           ++ flat_map (compound_drawn special k ls) (fc_compounds fc) ++ blanks (ls_cs ls) ri
           ++ (if complete then blanks (ls_cs (paragraph k)) (rp + rm) else []).

(** The widths of the columns of a line of a table *)
Definition table_line_width (ws : list nat) : nat := sum ws + length ws + 1.
(** The segments of a rule *)
Definition rule_drawn (k : MadSkin) (l m r : char) (ws : list nat) : list (char * CStyle) :=
  let cs := ls_cs (table k) in
  (l, cs) :: match ws with
             | [] => []
             | w :: ws => repeat (horizontal (table_border_chars k), cs) w
                          ++ flat_map (fun w => (m, cs) :: repeat (horizontal (table_border_chars k), cs) w) ws
             end ++ [(r, cs)].
Definition line_drawn (special : Special) (k : MadSkin) (line : FmtLine) (width : option nat) (complete : bool) (d : list (char * CStyle)) : Prop :=
  let t := table_border_chars k in
  let cs := ls_cs (table k) in
  let p := ls_cs (paragraph k) in
  match line with
  | Normal fc => composite_drawn special k fc width complete true d
  | TableRow cells => exists lp rp ds,
      shared_opt (ls_align (table k)) (table_line_width (map room cells)) width lp rp
      /\ Forall2 (fun c dc => composite_drawn special k c None false false dc) cells ds
      /\ d = blanks p lp ++ flat_map (fun dc => (vertical t, cs) :: dc) ds ++ [(vertical t, cs)] ++ (if complete then blanks p rp else [])
  | TableRule r => exists lp rp,
      shared_opt (ls_align (table k)) (table_line_width (widths r)) width lp rp
      /\ d = blanks p lp
             ++ match position r with
                | Top => rule_drawn k (top_left_corner t) (top_junction t) (top_right_corner t) (widths r)
                | Other => rule_drawn k (left_junction t) (cross t) (right_junction t) (widths r)
                | Bottom => rule_drawn k (bottom_left_corner t) (bottom_junction t) (bottom_right_corner t) (widths r)
                end
             ++ (if complete then blanks p rp else [])
  | HorizontalRule => d = match width with Some w => repeat (sc_char (horizontal_rule k), sc_style (horizontal_rule k)) w | None => [] end
  end.

(** The chars of the skin take one column, as told by the documentation of the skin *)
Definition skin_chars (k : MadSkin) : list char :=
  let t := table_border_chars k in
  [32%N; snd (sc_cache (bullet k)); snd (sc_cache (quote_mark k)); sc_char (horizontal_rule k);
   horizontal t; vertical t; top_left_corner t; top_right_corner t; bottom_left_corner t; bottom_right_corner t;
   top_junction t; bottom_junction t; left_junction t; right_junction t; cross t].
Definition narrow_chars (u : unicode) (k : MadSkin) : Prop := Forall (fun c => chw u c = 1) (skin_chars k).
(** A special char takes as many columns as the text it replaces *)
Definition same_widths (u : unicode) (special : Special) : Prop :=
  forall c r, special c = Some r -> chw u (snd (sc_cache r)) = sumw (chw u) (src c).

(** The content isn't larger than the space it has *)
Definition in_room (u : unicode) (k : MadSkin) (fc : FmtComposite) : Prop := shown u k fc <= room fc /\ length_ok u k fc.
Definition line_in_room (u : unicode) (k : MadSkin) (l : FmtLine) : Prop :=
  match l with
  | Normal fc => in_room u k fc
  | TableRow cells => Forall (in_room u k) cells
  | _ => True
  end.
(** The columns needed by a line in a width, margins included *)
Definition needs (k : MadSkin) (width : option nat) (l : FmtLine) (n : nat) : Prop :=
  match l with
  | Normal fc => exists ls lm rm, line_style k (fc_kind fc) = Ret ls /\ margins_ok ls true width lm rm /\ n = room fc + lm + rm
  | TableRow cells => n = table_line_width (map room cells)
  | TableRule r => n = table_line_width (widths r)
  | HorizontalRule => n = match width with Some w => w | None => 0 end
  end.
