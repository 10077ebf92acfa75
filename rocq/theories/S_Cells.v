(** * Vocabulary for the reading of a table on a terminal *)
From Verif Require Import Base M_Style M_Fit M_Wrap S_Wrap M_Text M_View S_View M_Render S_Render S_Border S_Paint S_Read.
Set Implicit Arguments.
Open Scope nat_scope.

(** What is read in a rectangle of the terminal, row by row *)
Definition read_block (t : term) (x y w h : nat) : str := flat_map (fun i => read_row t x (y + i) w) (seq 0 h).
(** The source of the cell number [j] of a line of a table *)
Definition source_cell (j : nat) (l : MLine) : str :=
  match l with MTableRow cells => match nth_error cells j with Some c => text_of (mc_compounds c) | None => [] end | _ => [] end.
(** The chars which can be seen, with what is told of each *)
Definition visible_of (u : unicode) {A} (l : list (char * A)) : list (char * A) := filter (fun c => negb (is_white u (fst c)) && (0 <? chw u (fst c))) l.
(** The number of columns of a table: the one of its line having the most of them *)
Definition source_columns (tb : list MLine) : nat :=
  fold_right Nat.max 0 (map (fun l => match l with MTableRow cells => length cells | MTableRule als => length als | _ => 0 end) tb).
(** The text of a rule, between the left of the table and its right *)
Definition rule_text (k : MadSkin) (ws : list nat) (pos : RelativePosition) : str :=
  let t := table_border_chars k in
  map fst match pos with
    | Top => rule_drawn k (top_left_corner t) (top_junction t) (top_right_corner t) ws
    | Other => rule_drawn k (left_junction t) (cross t) (right_junction t) ws
    | Bottom => rule_drawn k (bottom_left_corner t) (bottom_junction t) (bottom_right_corner t) ws
    end.
(** What is read on the rows [y], …, [y + h - 1] for a line of a table whose left is at [x] *)
Definition reads_source (u : unicode) (k : MadSkin) (tm : term) (ws : list nat) (l : MLine) (x y h : nat) : Prop :=
  match l with
  | MTableRow _ =>
      (forall j, j < length ws -> visible u (read_block tm (x + edge ws j + 1) y (nth j ws 0) h) = visible u (source_cell j l))
      /\ (forall j d, j <= length ws -> d < h -> read_row tm (x + edge ws j) (y + d) 1 = [vertical (table_border_chars k)])
  | _ => h = 1 /\ exists pos, read_row tm x y (table_line_width ws) = rule_text k ws pos
  end.
