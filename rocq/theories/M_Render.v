(** * Model of the rendering: write_fmt_composite, write_fmt_line (src/skin.rs), and what displays formatted things

    [special] is the look-up in the [special_chars] of the skin (feature special-renders, which is in the default ones). *)
From Verif Require Import Base M_Style M_Fit M_Wrap M_TblFit M_Text M_Fitter M_View.
Set Implicit Arguments.
Open Scope nat_scope.

Definition Special := Compound -> option StyledChar.

(** src/skin.rs:536-554: what's before the text *)
Definition composite_mark (k : MadSkin) (kind : CompositeKind) : list cmd :=
  let space := cs_queue (ls_cs (paragraph k)) [c_space] in
  match kind with
  | KListItem depth => concat (repeat space depth) ++ sc_queue (bullet k) ++ space
  | _ => []
  end
  ++ match indent_mode k, kind with
     | Block, KListItemFollowUp depth => concat (repeat space (depth + 1)) ++ space
     | _, _ => []
     end
  ++ match kind with KQuote => sc_queue (quote_mark k) ++ space | _ => [] end.
(** src/skin.rs:555-568 *)
Definition compound_out (special : Special) (k : MadSkin) (ls : LStyle) (c : Compound) : list cmd :=
  match special c with
  | Some replacement => sc_queue replacement
  | None => cs_queue (compound_style k ls c) (src c)
  end.
(** src/skin.rs:545 (the end of the range): [depth + 1] is computed on [u8], and panics when it overflows *)
Definition mark_overflow (k : MadSkin) (kind : CompositeKind) : outcome unit :=
  match indent_mode k, kind with Block, KListItemFollowUp depth => if depth <? 255 then Ret tt else Panic | _, _ => Ret tt end.
(** src/skin.rs:513-574 *)
Definition write_fmt_composite (special : Special) (k : MadSkin) (fc : FmtComposite) (outer_width : option nat)
    (with_right_completion with_margins : bool) : outcome (list cmd) :=
  ls <- line_style k (fc_kind fc) ;;
  _ <- mark_overflow k (fc_kind fc) ;;
  let '(lm, rm) := if with_margins then margins_in ls outer_width else (0, 0) in
  let '(lpi, rpi) := fc_completions fc in
  let inner_width := match fc_spacing fc with Some sp => sp_width sp | None => visible_length fc end in
  let '(lpo, rpo) := optional_completions (ls_align ls) (inner_width + lm + rm) outer_width in
  Ret (ls_repeat_space (paragraph k) (lpo + lm)
       ++ cs_repeat_space (ls_cs ls) lpi
       ++ composite_mark k (fc_kind fc)
       ++ flat_map (compound_out special k ls) (fc_compounds fc)
       ++ cs_repeat_space (ls_cs ls) rpi
       ++ (if with_right_completion then ls_repeat_space (paragraph k) (rpo + rm) else [])).

(** src/skin.rs:595-613 *)
Definition row_width (cells : list FmtComposite) : nat :=
  1 + fold_left (fun sum cell => sum + match fc_spacing cell with Some sp => sp_width sp | None => visible_length cell end + 1) cells 0.
Fixpoint write_cells (special : Special) (k : MadSkin) (cells : list FmtComposite) : outcome (list cmd) :=
  match cells with
  | [] => Ret []
  | c :: r =>
      l <- write_fmt_composite special k c None false false ;;
      rest <- write_cells special k r ;;
      Ret (cs_queue (ls_cs (table k)) [vertical (table_border_chars k)] ++ l ++ rest)
  end.
(** src/skin.rs:614-653: the chars of a rule according to its position *)
Definition rule_left (t : TableBorderChars) (p : RelativePosition) : char :=
  match p with Top => top_left_corner t | Other => left_junction t | Bottom => bottom_left_corner t end.
Definition rule_mid (t : TableBorderChars) (p : RelativePosition) : char :=
  match p with Top => top_junction t | Other => cross t | Bottom => bottom_junction t end.
Definition rule_right (t : TableBorderChars) (p : RelativePosition) : char :=
  match p with Top => top_right_corner t | Other => right_junction t | Bottom => bottom_right_corner t end.
Fixpoint rule_cells (k : MadSkin) (p : RelativePosition) (first : bool) (ws : list nat) : list cmd :=
  match ws with
  | [] => []
  | w :: r =>
      (if first then [] else cs_queue (ls_cs (table k)) [rule_mid (table_border_chars k) p])
      ++ cs_repeat_char (ls_cs (table k)) (horizontal (table_border_chars k)) w
      ++ rule_cells k p false r
  end.
(** src/skin.rs:583-661 *)
Definition write_fmt_line (special : Special) (k : MadSkin) (line : FmtLine) (width : option nat) (with_right_completion : bool)
    : outcome (list cmd) :=
  let tbc := table_border_chars k in
  match line with
  | Normal fc => write_fmt_composite special k fc width with_right_completion true
  | TableRow cells =>
      let '(lpo, rpo) := optional_completions (ls_align (table k)) (row_width cells) width in
      l <- write_cells special k cells ;;
      Ret (ls_repeat_space (paragraph k) lpo ++ l ++ cs_queue (ls_cs (table k)) [vertical tbc]
           ++ (if with_right_completion then ls_repeat_space (paragraph k) rpo else []))
  | TableRule r =>
      let tbl_width := 1 + fold_left (fun sum w => sum + w + 1) (widths r) 0 in
      let '(lpo, rpo) := optional_completions (ls_align (table k)) tbl_width width in
      Ret (ls_repeat_space (paragraph k) lpo
           ++ cs_queue (ls_cs (table k)) [rule_left tbc (position r)]
           ++ rule_cells k (position r) true (widths r)
           ++ cs_queue (ls_cs (table k)) [rule_right tbc (position r)]
           ++ (if with_right_completion then ls_repeat_space (paragraph k) rpo else []))
  | HorizontalRule => Ret (match width with Some w => sc_repeated (horizontal_rule k) w | None => [] end)
  end.

(** src/displayable_line.rs:25-29 *)
Definition display_line (special : Special) (k : MadSkin) (line : FmtLine) (width : option nat) : outcome (list cmd) :=
  write_fmt_line special k line width true.
(** src/inline.rs:19-24 *)
Definition display_inline (special : Special) (k : MadSkin) (fc : FmtComposite) : outcome (list cmd) :=
  write_fmt_composite special k fc None false true.
(** src/text.rs:93-101 *)
Fixpoint display_lines (special : Special) (k : MadSkin) (lines : list FmtLine) (width : option nat) : outcome (list cmd) :=
  match lines with
  | [] => Ret []
  | line :: r =>
      l <- write_fmt_line special k line width false ;;
      rest <- display_lines special k r width ;;
      Ret (l ++ Print [10%N] :: rest)
  end.
Definition display_text (special : Special) (k : MadSkin) (t : FmtText) : outcome (list cmd) :=
  display_lines special k (txt_lines t) (txt_width t).
(** src/skin.rs:460-479 *)
Definition write_composite_fill (u : unicode) (special : Special) (k : MadSkin) (c : MComposite) (width : nat) (align : Alignment) : outcome (list cmd) :=
  fc <- fill_width u (fc_from u k c) width align k ;;
  display_inline special k fc.
(** src/skin.rs:442-453 *)
Definition write_composite (u : unicode) (special : Special) (k : MadSkin) (c : MComposite) : outcome (list cmd) :=
  display_inline special k (fc_from u k c).
(** The lines of a [TextView] are written with [DisplayableLine]: src/views/text_view.rs:112-117 *)
Definition render_line (special : Special) (k : MadSkin) (line : FmtLine) (width : nat) : outcome (list cmd) :=
  display_line special k line (Some width).
(** src/skin.rs:292-299 *)
Definition visible_line_length (u : unicode) (k : MadSkin) (line : MLine) : nat :=
  match line with
  | MNormal c => visible_composite_length u k (kind_of (mc_style c)) (mc_compounds c)
  | _ => 0
  end.
