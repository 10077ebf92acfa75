(** * Vocabulary for the reading of a whole text on a terminal *)
From Verif Require Import Base M_Style M_Fit M_Wrap S_Wrap M_Text M_View S_View M_Render S_Render S_Border S_Paint S_Read S_Cells S_Local.
Set Implicit Arguments.
Open Scope nat_scope.

(** How a source line is placed: the rows it takes, the widths of the columns of its table, the columns before it *)
Record Laid := mkLaid { l_rows : nat; l_columns : list nat; l_left : nat }.

(** A text without some of its blanks *)
Inductive shrunk (u : unicode) : str -> str -> Prop :=
| sh_nil : shrunk u [] []
| sh_keep c s d : shrunk u s d -> shrunk u (c :: s) (c :: d)
| sh_drop c s d : is_white u c = true -> shrunk u s d -> shrunk u (c :: s) d.
(** What is read before the text of a line, on its row number [i]: the bullet on the first row of an item, the mark on all the rows of a quote *)
Definition row_mark (k : MadSkin) (kind : CompositeKind) (i : nat) : str :=
  match kind, i with
  | KListItem _, 0 => [snd (sc_cache (bullet k)); 32%N]
  | KQuote, _ => [snd (sc_cache (quote_mark k)); 32%N]
  | _, _ => []
  end.
Definition spaces (n : nat) : str := repeat 32%N n.

(** What is read on the rows [y], …, [y + l_rows p - 1] for a source line, in the columns from [x] to [x + w - 1].
    A line of code is read just as it's written. Other lines are cut in parts, one for each row, which give the text but for some blanks. *)
Definition reads_line (u : unicode) (k : MadSkin) (tm : term) (p : Laid) (l : MLine) (x y w : nat) : Prop :=
  match l with
  | MNormal c => exists parts, length parts = l_rows p /\ shrunk u (text_of (mc_compounds c)) (concat parts)
      /\ (forall i part, nth_error parts i = Some part -> exists a b,
           read_row tm x (y + i) w = spaces a ++ placed_chars u (row_mark k (kind_of (mc_style c)) i ++ part) ++ spaces b
           /\ (of_code l = true -> a = l_left p))
      /\ (of_code l = true -> parts = [text_of (mc_compounds c)])
  | MTableRow cells => length cells <= length (l_columns p) /\ l_left p + table_line_width (l_columns p) <= w
      /\ reads_source u k tm (l_columns p) l (x + l_left p) y (l_rows p)
  | MTableRule _ => l_left p + table_line_width (l_columns p) <= w /\ reads_source u k tm (l_columns p) l (x + l_left p) y (l_rows p)
  | _ => l_rows p = 1 /\ read_row tm x y w = repeat (sc_char (horizontal_rule k)) w
  end.
(** Two lines of the same table, or of the same block of code, when they are one after the other *)
Definition together (l l' : MLine) : Prop := (of_table l = true /\ of_table l' = true) \/ (of_code l = true /\ of_code l' = true).
(** They have the same columns and the same left *)
Definition aligned (text : list MLine) (ps : list Laid) : Prop :=
  forall i l l' p p', nth_error text i = Some l -> nth_error text (S i) = Some l' -> nth_error ps i = Some p -> nth_error ps (S i) = Some p' ->
  together l l' -> l_columns p = l_columns p' /\ l_left p = l_left p'.
